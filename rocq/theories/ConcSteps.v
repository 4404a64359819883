(** The steps of the concurrent machine preserve its invariant. *)
From Coq Require Import Permutation.
From Verif Require Import Base BaseFacts Alloc AllocFacts Arena ArenaFacts ArenaInv ArenaOps
  BlinkAlloc BlinkFacts History HistoryFacts Setup SetupFacts SetupOps Conc ConcFacts.

Definition fin_tab (j : job) (r : option block) (tab : list (option ublock)) : list (option ublock) :=
  match j, r with
  | JAlloc l, Some b => tab ++ [Some (mkU (b_ptr b) (b_len b) l)]
  | JResize h _ _ new, Some b => set_nth h (Some (mkU (b_ptr b) (b_len b) new)) tab
  | JDealloc h _ _, _ => set_nth h None tab
  | _, None => tab
  end.
Definition fin_handle (j : job) (r : option block) (tab : list (option ublock)) : option nat :=
  match j, r with
  | JAlloc l, Some b => Some (length tab)
  | JResize h _ _ new, Some b => Some h
  | JDealloc h _ _, _ => Some h
  | _, None => job_handle j
  end.

Lemma finish_eq t j wr r g :
  finish t j wr r g =
  ORet [Lin t (job_op j) r]
    (mkG (fin_tab j r (g_tab g)) (set_nth t (Unlock wr None (fin_handle j r (g_tab g))) (g_thr g))
         (g_lock g) (g_aw g)).
Proof. destruct j, r; reflexivity. Qed.

Lemma wp_get_g {B} (f : gst -> M gst B) g Q : wp (f g) g Q -> wp (bind get_g f) g Q.
Proof. auto. Qed.
Lemma wp_put_lock {B} k (f : unit -> M gst B) g Q :
  wp (f tt) (mkG (g_tab g) (g_thr g) k (g_aw g)) Q -> wp (bind (put_lock k) f) g Q.
Proof. auto. Qed.
Lemma wp_put_tab {B} h (f : unit -> M gst B) g Q :
  wp (f tt) (mkG (h (g_tab g)) (g_thr g) (g_lock g) (g_aw g)) Q -> wp (bind (put_tab h) f) g Q.
Proof. auto. Qed.
Lemma wp_become {B} t p (f : unit -> M gst B) g Q :
  wp (f tt) (mkG (g_tab g) (set_nth t p (g_thr g)) (g_lock g) (g_aw g)) Q ->
  wp (bind (become t p) f) g Q.
Proof. auto. Qed.
Lemma wp_on_aw {B C} (m : M (AW (W := bworld)) B) (f : B -> M gst C) g Q :
  wp m (g_aw g) (fun b aw' => wp (f b) (mkG (g_tab g) (g_thr g) (g_lock g) aw') Q) ->
  wp (bind (on_aw m) f) g Q.
Proof. unfold wp, bind, on_aw. destruct (m (g_aw g)); auto. Qed.
Lemma wp_on_w {B C} (m : M bworld B) (f : B -> M gst C) g Q :
  wp m (snd (g_aw g)) (fun b w' => wp (f b) (mkG (g_tab g) (g_thr g) (g_lock g) (fst (g_aw g), w')) Q) ->
  wp (bind (on_w m) f) g Q.
Proof.
  intros H. apply wp_on_aw. unfold wp, with_aw, bind, ret in *.
  destruct (m (snd (g_aw g))); auto.
Qed.
Lemma gst_eta g : mkG (g_tab g) (g_thr g) (g_lock g) (fst (g_aw g), snd (g_aw g)) = g.
Proof. destruct g as [? ? ? [? ?]]; reflexivity. Qed.

Lemma lock_ok_ext k thr t p1 p2 : reading p1 = reading p2 -> writing p1 = writing p2 ->
  lock_ok k (set_nth t p1 thr) -> lock_ok k (set_nth t p2 thr).
Proof.
  intros Er Ew H. destruct (nth_error thr t) as [q|] eqn:E.
  - replace (set_nth t p2 thr) with (set_nth t p2 (set_nth t p1 thr)).
    + apply (lock_same k _ t p1); auto. apply (nth_set_same _ _ _ _ E).
    + clear. revert t. induction thr as [|y thr IH]; intros [|t]; cbn; auto. rewrite IH; auto.
  - replace (set_nth t p2 thr) with (set_nth t p1 thr); [exact H|].
    revert E. clear. revert t. induction thr as [|y thr IH]; intros [|t] E; cbn in *; auto;
      [discriminate|]. rewrite IH; auto.
Qed.

(** Applying the effects of events to the buffers. *)
Definition sev (s : list (option sbuf)) (e : event) : list (option sbuf) :=
  match e with
  | Lin _ o r => sstep o (option_map b_len r) s
  | ResetAll keep => sstep (OpReset keep) None s
  | _ => s
  end.
Definition sevs (es : list event) (s : list (option sbuf)) : list (option sbuf) := fold_left sev es s.

Lemma sevs_run es : forall s,
  sevs es s = srun (lin_ops es) (map (option_map b_len) (lin_results es)) s.
Proof.
  induction es as [|[t o|t o r|t|t|keep] es IH]; intros s; cbn; auto; apply IH.
Qed.

Section Facts.
  Variable su : setup.
  Hypothesis Hok : setup_ok su.
  Notation amax := (su_amax su).
  Notation bown := (base_own (su_amax su) (su_bmax su)).
  Notation brep := (arep (su_amax su) (bot su) (base_own (su_amax su) (su_bmax su))).
  Notation A := (bot su).
  Notation dbg := (su_dbg su).
  Variable sole : bool.
  Variable ext : list ublock.
  Variable m0 : mem.
  Notation xinv := (xinv su sole ext m0).
  Notation xinvx := (xinvx su sole ext m0).
  Notation rest_ok := (rest_ok sole ext m0).
  Notation job_ok := (job_ok su).
  Notation pc_ok := (pc_ok su).
  Notation nextable := (nextable su sole ext m0).
  Notation ctx := (su_ct su Hok).

  Lemma fin_agrees m m' tab s j r :
    agrees m tab s -> job_ok tab j ->
    (forall h u, get h tab = Some u -> job_handle j <> Some h -> same_on [u] m m') ->
    match j, r with
    | JResize _ u old new, Some b =>
        forall i, 0 <= i < Z.min (l_size new) (l_size old) -> m' (b_ptr b + i) = m (u_ptr u + i)
    | JResize _ u _ _, None => same_on [u] m m'
    | _, _ => True
    end ->
    agrees m' (fin_tab j r tab) (sstep (job_op j) (option_map b_len r) s).
  Proof.
    intros Ha Hj Hs Hr.
    assert (Hall : (forall h u, get h tab = Some u -> same_on [u] m m') -> agrees m' tab s).
    { intros H. apply (agrees_same m m' tab s (live tab)); auto; [apply incl_refl|].
      intros u x Hu Hx. apply live_in in Hu. destruct Hu as [h Hu].
      apply (H h u Hu u); [left; reflexivity|exact Hx]. }
    assert (Hoth : forall h t1 t2 s1 s2 u, tab = t1 ++ Some u :: t2 -> length t1 = h ->
              job_handle j = Some h -> agrees m t1 s1 -> agrees m t2 s2 ->
              agrees m' t1 s1 /\ agrees m' t2 s2).
    { intros h t1 t2 s1 s2 u Et <- Eh A1 A2.
      assert (forall v, In v (live (t1 ++ t2)) -> same_on [v] m m').
      { intros v Hv. apply live_in in Hv. destruct Hv as [h' Hv].
        destruct (Nat.lt_ge_cases h' (length t1)) as [L|L].
        - apply (Hs h' v); [|rewrite Eh; intros X; inversion X; lia].
          subst tab. revert Hv. unfold get. rewrite !nth_error_app1 by lia. auto.
        - apply (Hs (S h') v); [|rewrite Eh; intros X; inversion X; lia].
          subst tab. revert Hv. unfold get. rewrite !nth_error_app2 by lia.
          replace (S h' - length t1)%nat with (S (h' - length t1)) by lia. auto. }
      split.
      - apply (agrees_same m m' _ _ (live t1)); auto; [apply incl_refl|]. intros v x Hv Hx.
        refine (H v _ v x (or_introl eq_refl) Hx). rewrite live_app; apply in_or_app; auto.
      - apply (agrees_same m m' _ _ (live t2)); auto; [apply incl_refl|]. intros v x Hv Hx.
        refine (H v _ v x (or_introl eq_refl) Hx). rewrite live_app; apply in_or_app; auto. }
    destruct j as [l|h u old new|h u l]; cbn [fin_tab job_op sstep job_handle] in *.
    - assert (H1 : agrees m' tab s) by (apply Hall; intros h u G; apply (Hs h u G); discriminate).
      destruct r as [b|]; cbn [option_map]; [|exact H1].
      apply Forall2_app; [exact H1|]. constructor; [|constructor]. split; [reflexivity|].
      split; [reflexivity|]. cbn. discriminate.
    - destruct Hj as (G & F & Hn). destruct r as [b|]; cbn [option_map].
      + destruct (agrees_get _ _ _ _ _ Ha G) as (t1 & t2 & s1 & s2 & sb & Et & Es & L1 & L2 & Hb & A1 & A2).
        assert (Gs : get h s = Some sb) by (rewrite Es, <- L2; apply get_mid). rewrite Gs.
        destruct (Hoth h t1 t2 s1 s2 u Et L1 eq_refl A1 A2) as [B1 B2].
        rewrite Et, Es. rewrite <- L1 at 1. rewrite <- L2. rewrite !set_nth_split.
        apply Forall2_app; [exact B1|]. constructor; [|exact B2].
        split; [reflexivity|]. split; [reflexivity|]. cbn [s_len s_at b_len u_ptr].
        intros i c Hi. destruct (Z.ltb_spec i (Z.min (l_size old) (l_size new))); [|discriminate].
        intros Hc. rewrite Hr by lia. destruct Hb as (_ & E & Hb). destruct F as (_ & F).
        apply Hb; [|exact Hc]. rewrite <- E. lia.
      + apply Hall. intros h' u' G'. destruct (Nat.eq_dec h h') as [<-|N].
        * assert (u' = u) by congruence. subst. exact Hr.
        * apply (Hs h'); [exact G'|]. congruence.
    - destruct Hj as (G & F).
      destruct (agrees_get _ _ _ _ _ Ha G) as (t1 & t2 & s1 & s2 & sb & Et & Es & L1 & L2 & Hb & A1 & A2).
      assert (Gs : get h s = Some sb) by (rewrite Es, <- L2; apply get_mid).
      assert (E : match get h s with Some b => if s_fits l b then set_nth h None s else s | None => s end
                  = set_nth h None s).
      { rewrite Gs. destruct Hb as (B1 & B2 & _).
        replace (s_fits l sb) with (fitsb l u) by (unfold s_fits, fitsb; rewrite B1, B2; reflexivity).
        replace (fitsb l u) with true by (symmetry; apply fitsb_spec; exact F). reflexivity. }
      assert (Goal : agrees m' (set_nth h None tab) (set_nth h None s)).
      { destruct (Hoth h t1 t2 s1 s2 u Et L1 eq_refl A1 A2) as [B1 B2].
        rewrite Et, Es. rewrite <- L1 at 1. rewrite <- L2. rewrite !set_nth_split.
        apply Forall2_app; [exact B1|]. constructor; [exact I|exact B2]. }
      destruct r; cbn [option_map]; rewrite E; exact Goal.
  Qed.

  Lemma fin_tab_len j r tab : (length tab <= length (fin_tab j r tab))%nat.
  Proof.
    destruct j, r; cbn; rewrite ?app_length, ?set_nth_length; cbn; lia.
  Qed.

  Lemma get_set_other {T} h h' (x : option T) t : h <> h' -> get h' (set_nth h x t) = get h' t.
  Proof. intros N. unfold get. rewrite nth_set_other by exact N. reflexivity. Qed.

  Lemma fin_tab_other j r tab h u : job_handle j <> Some h -> get h tab = Some u ->
    get h (fin_tab j r tab) = Some u.
  Proof.
    intros N G. destruct j, r; cbn in *; auto; try (apply get_app_l; exact G);
      rewrite get_set_other by congruence; exact G.
  Qed.

  Lemma finish_inv cs tab thr k ar w s t p rest :
    xinvx cs (mkG tab thr k (ar, w)) s -> nth_error thr t = Some p ->
    nextable cs (mkG tab thr k (ar, w)) t p rest ->
    forall j wr r k' ar' w' cs',
      job_ok tab j -> pc_handle p = job_handle j ->
      lock_ok k' (set_nth t (Unlock wr None None) thr) ->
      brep ext cs' ar' w' (live (fin_tab j r tab) ++ rest) ->
      rest_ok cs' w' -> ar_min ar' = su_min su ->
      (forall h u, get h tab = Some u -> job_handle j <> Some h -> same_on [u] (bw_mem w) (bw_mem w')) ->
      match j, r with
      | JResize _ u old new, Some b =>
          forall i, 0 <= i < Z.min (l_size new) (l_size old) ->
            bw_mem w' (b_ptr b + i) = bw_mem w (u_ptr u + i)
      | JResize _ u _ _, None => same_on [u] (bw_mem w) (bw_mem w')
      | _, _ => True
      end ->
      same_on rest (bw_mem w) (bw_mem w') ->
      (writing p = true \/ forall r e, root_is cs r e -> root_is cs' r e) ->
      xinv (mkG (fin_tab j r tab) (set_nth t (Unlock wr None (fin_handle j r tab)) thr) k' (ar', w'))
           (sstep (job_op j) (option_map b_len r) s).
  Proof.
    intros C Hp N j wr r k' ar' w' cs' Hj Eh Hl R Hh Hm Hs Hr Hrest Hroot.
    destruct C as (_ & _ & _ & Ha & _). cbn [g_tab g_thr g_lock g_aw fst snd] in *.
    apply (N (Unlock wr None (fin_handle j r tab)) (fin_tab j r tab) k' ar' w' cs');
      cbn [g_tab g_thr g_lock g_aw fst snd]; auto.
    - apply (fin_agrees (bw_mem w) (bw_mem w')); auto.
    - apply (lock_ok_ext k' thr t (Unlock wr None None)); auto.
    - cbn. destruct j as [l|h u old new|h u l], r as [b|]; cbn; auto; rewrite ?app_length, ?set_nth_length; cbn;
        try lia; apply (get_len _ _ u); apply Hj.
    - intros h u E G. rewrite Eh in E. split; [apply fin_tab_other; auto|].
      intros _. apply (Hs h u G E).
    - apply fin_tab_len.
    - cbn. intros h E. destruct j, r; cbn in *; try discriminate; inversion E; subst; auto.
  Qed.

  Lemma move_inv cs tab thr k ar w s t p rest p' k' :
    xinvx cs (mkG tab thr k (ar, w)) s ->
    brep ext cs ar w (live tab ++ hold p ++ rest) ->
    nextable cs (mkG tab thr k (ar, w)) t p rest ->
    hold p' = hold p -> (forall h, pc_handle p' = Some h -> pc_handle p = Some h) ->
    lock_ok k' (set_nth t p' thr) -> pc_ok cs tab (bw_mem w) p' ->
    xinv (mkG tab (set_nth t p' thr) k' (ar, w)) s.
  Proof.
    intros (R0 & Hh & Hm & Ha & _) R N Eh Ep Hl Hpc. cbn [g_tab g_thr g_lock g_aw fst snd] in *.
    apply (N p' tab k' ar w cs); cbn [g_tab g_thr g_lock g_aw fst snd]; auto.
    - rewrite Eh. exact R.
    - intros h u _ G. split; [exact G|]. intros _. apply same_on_refl.
    - apply same_on_refl.
  Qed.

  Notation post s := (fun es g' => xinv g' (sevs es s)).

  Lemma xheader_of cs ar w us r : brep ext cs ar w us -> (exists e, root_is cs r e) ->
    exists c cs0, cs = c :: cs0 /\ r = c_ptr c /\
      load (bw_mem w) (r + CURSOR) 8 = Some (c_cur c) /\
      load (bw_mem w) (r + END) 8 = Some (c_end c) /\
      0 < c_ptr c /\ c_base c <= c_cur c <= c_end c /\ c_end c <= amax.
  Proof.
    intros R (e & Hr). destruct cs as [|c cs0]; [contradiction|]. destruct Hr as [<- <-].
    exists c, cs0. split; [reflexivity|]. split; [reflexivity|].
    pose proof (ar_chain _ _ _ _ _ _ _ _ R) as Hch. cbn [chain] in Hch.
    destruct Hch as ((_ & _ & W1) & (H1 & H2 & _) & _).
    destruct (arep_chunk_ok _ _ _ _ ctx _ _ _ _ _ c R (or_introl eq_refl)) as (_ & _ & P1 & _ & _ & E1).
    auto 10.
  Qed.

  (** *** Taking the read lock *)

  Lemma enter_step cs tab thr k ar w s t j :
    xinvx cs (mkG tab thr k (ar, w)) s -> nth_error thr t = Some (WantRead j) ->
    lk_writer k = None ->
    wp (enter t j (ar_root ar)) (mkG tab thr (with_reader t k) (ar, w)) (post s).
  Proof.
    intros C Hp Hw. destruct (xinv_next su sole ext m0 _ _ _ _ _ C Hp) as (rest & R & N).
    pose proof C as (_ & Hh & Hm & Ha & Hlk & Hpc & _). cbn [g_tab g_thr g_lock g_aw fst snd] in *.
    pose proof (Hpc t _ Hp) as Hj. cbn [pc_ok ConcFacts.pc_ok] in Hj.
    assert (Hlk' : forall p', reading p' = true -> writing p' = false ->
              lock_ok (with_reader t k) (set_nth t p' thr)).
    { intros p' E1 E2. apply (lock_read k thr t (WantRead j)); auto. }
    assert (Root : ar_root ar = head_ptr cs) by apply (ar_head _ _ _ _ _ _ _ _ R).
    assert (Hmove : forall p', reading p' = true -> writing p' = false -> hold p' = [] ->
              pc_handle p' = job_handle j -> pc_ok cs tab (bw_mem w) p' ->
              xinv (mkG tab (set_nth t p' thr) (with_reader t k) (ar, w)) s).
    { intros p' E1 E2 E3 E4 Hpc'. apply (move_inv cs tab thr k ar w s t (WantRead j) rest); auto.
      intros h. cbn. rewrite E4. auto. }
    unfold enter. rewrite Root. destruct cs as [|c cs0]; cbn [head_ptr].
    - assert (Hretry : takes j -> wp (become t (Unlock false (Some j) (job_handle j)) ;;; ret [])
                (mkG tab thr (with_reader t k) (ar, w)) (post s)).
      { intros Tj. apply wp_become, wp_ret. cbn. apply Hmove; auto. cbn. auto. }
      destruct j as [l|h u old new|h u l]; [apply Hretry; exact I|apply Hretry; exact I|].
      unfold wp. rewrite finish_eq. cbn [sevs fold_left sev].
      apply (finish_inv [] tab thr k ar w s t (WantRead (JDealloc h u l)) rest C Hp N
               (JDealloc h u l) false None (with_reader t k) ar w []); auto.
      + apply (arep_perm _ _ _ _ _ _ _ (live (set_nth h None tab) ++ rest)); [reflexivity|].
        destruct (tab_split _ _ _ (proj1 Hj)) as (l0 & P1 & _ & E & _). cbn [fin_tab]. rewrite E.
        apply (arep_drop _ _ _ _ _ _ _ u).
        apply (arep_perm _ _ _ _ _ _ _ (live tab ++ hold (WantRead (JDealloc h u l)) ++ rest)); [|exact R].
        cbn [hold app]. rewrite P1. reflexivity.
      + intros h' u' _ _. apply same_on_refl.
      + apply same_on_refl.
    - assert (Hload : takes j -> wp (become t (Load j (c_ptr c)) ;;; ret [])
                (mkG tab thr (with_reader t k) (ar, w)) (post s)).
      { intros Tj. apply wp_become, wp_ret. cbn. apply Hmove; auto. cbn. split; [exact Hj|].
        split; [exact Tj|]. exists (c_end c). auto. }
      destruct j as [l|h u old new|h u l]; [apply Hload; exact I| |].
      + destruct (Z.leb_spec (l_align new) (l_align old)) as [La|La]; [|apply Hload; exact I].
        destruct (Z.leb_spec (l_size new) (l_size old)) as [Ls|Ls].
        * unfold wp. rewrite finish_eq. cbn [sevs fold_left sev].
          cbn in Hj. destruct Hj as (G & F & Hn).
          apply (finish_inv (c :: cs0) tab thr k ar w s t (WantRead (JResize h u old new)) rest C Hp N
               (JResize h u old new) false (Some (mkBlock (u_ptr u) (l_size old))) (with_reader t k) ar w (c :: cs0)); auto.
          -- cbn. auto.
          -- cbn [fin_tab b_ptr b_len]. destruct (tab_split _ _ _ G) as (l0 & P1 & P2 & _ & _).
             assert (Hin : In u (live tab ++ rest)) by (apply in_or_app; left; apply live_in; eauto).
             pose proof (ar_ok _ _ _ _ _ _ _ _ R) as Ho. rewrite Forall_forall in Ho.
             cbn [hold app] in Ho, R.
             specialize (Ho u Hin). pose proof Ho as ((G1 & G2 & G3 & G4) & _ & G5). cbn in G1, G2, G3, G4.
             pose proof F as (F1 & F2).
             apply (arep_perm _ _ _ _ _ _ _ (mkU (u_ptr u) (l_size old) new :: l0 ++ rest)).
             { rewrite (P2 _). reflexivity. }
             apply (arep_replace _ _ _ _ _ _ _ u).
             ++ apply (arep_perm _ _ _ _ _ _ _ (live tab ++ rest)); [|exact R]. rewrite P1. reflexivity.
             ++ reflexivity.
             ++ cbn. lia.
             ++ apply (mkU_ok amax (su_smax su) new (mkBlock (u_ptr u) (l_size old))); [exact Hn|].
                unfold good_block; cbn. repeat split; try lia.
                apply (align_le_ok amax (su_smax su) u old new); auto.
          -- intros h' u' _ _. apply same_on_refl.
          -- apply same_on_refl.
        * apply wp_become, wp_ret. cbn. apply Hmove; auto. cbn. split; [exact Hj|].
          split; [exists (c_end c); auto|lia].
      + apply wp_become, wp_ret. cbn. apply Hmove; auto. cbn. split; [exact Hj|].
        split; [exists (c_end c); auto|exact I].
  Qed.

  (** *** Steps inside the read lock *)

  Ltac start_step C Hp rest R Nx :=
    destruct (xinv_next su sole ext m0 _ _ _ _ _ C Hp) as (rest & R & Nx);
    pose proof C as (_ & Hh & Hm & Ha & Hlk & Hpc & _); cbn [g_tab g_thr g_lock g_aw fst snd] in *;
    pose proof (Hpc _ _ Hp) as Hj; cbn [ConcFacts.pc_ok] in Hj.

  Lemma retry_step cs tab thr k ar w s t p j rest :
    xinvx cs (mkG tab thr k (ar, w)) s -> nth_error thr t = Some p ->
    brep ext cs ar w (live tab ++ hold p ++ rest) ->
    nextable cs (mkG tab thr k (ar, w)) t p rest ->
    reading p = true -> writing p = false -> hold p = [] -> pc_handle p = job_handle j ->
    job_ok tab j -> takes j ->
    wp (retry t j) (mkG tab thr k (ar, w)) (post s).
  Proof.
    intros C Hp R Nx Er Ew Eh Ep Hj Tj. pose proof C as (_ & _ & _ & _ & Hlk & _).
    unfold retry. apply wp_become, wp_ret. cbn.
    apply (move_inv cs tab thr k ar w s t p rest); auto.
    - intros h. cbn. rewrite Ep. auto.
    - apply (lock_same _ _ _ p); auto.
    - cbn. auto.
  Qed.

  Lemma load_step cs tab thr k ar w s t j r sp :
    xinvx cs (mkG tab thr k (ar, w)) s -> nth_error thr t = Some (Load j r) ->
    wp (go su t (Load j r) sp) (mkG tab thr k (ar, w)) (post s).
  Proof.
    intros C Hp. start_step C Hp rest R Nx. destruct Hj as (Hj & Tj & Hr).
    destruct (xheader_of _ _ _ _ _ R Hr) as (c & cs0 & -> & -> & L1 & L2 & P & B & _).
    cbn [go]. apply wp_on_w. eapply wp_mload; [exact L1|].
    apply wp_become, wp_ret. cbn.
    apply (move_inv (c :: cs0) tab thr k ar w s t (Load j (c_ptr c)) rest); auto.
    - apply (lock_same _ _ _ (Load j (c_ptr c))); auto.
    - cbn. unfold c_base, HDR in *. repeat split; auto; lia.
  Qed.

  Lemma set_root c cs0 n r e : root_is (c :: cs0) r e -> root_is (set_cur c n :: cs0) r e.
  Proof. exact (fun H => H). Qed.

  (** Writing the new cursor makes room for the block of the job. *)
  Lemma cas_step cs tab thr k ar w s t j r cursor sp :
    xinvx cs (mkG tab thr k (ar, w)) s -> nth_error thr t = Some (Cas j r cursor) ->
    wp (go su t (Cas j r cursor) sp) (mkG tab thr k (ar, w)) (post s).
  Proof.
    intros C Hp. start_step C Hp rest R Nx. destruct Hj as (Hj & Tj & Hcur & Hr).
    destruct (xheader_of _ _ _ _ _ R Hr) as (c & cs0 & -> & -> & L1 & L2 & P & B & Hend).
    assert (Hl : req_ok (su_smax su) (job_layout j)).
    { destruct j; cbn in Hj |- *; [exact Hj|tauto|contradiction]. }
    pose proof (su_smax_ok su Hok) as Hs. pose proof (su_amax_ok su Hok) as Hamax.
    cbn [go]. apply wp_on_w. eapply wp_mload; [exact L2|].
    apply wp_on_w. eapply wp_intro; [apply (alloc_attempt_eq dbg _ _ _ (su_smax su)); auto; lia|].
    destruct (room cursor (c_end c) (job_layout j)) eqn:Rm.
    2: { cbn [fst snd g_tab g_thr g_lock g_aw].
         apply (retry_step (c :: cs0) tab thr k ar w s t (Cas j (c_ptr c) cursor) j rest); auto. }
    apply wp_on_w. eapply wp_mload; [exact L1|]. cbn [fst snd g_tab g_thr g_lock g_aw].
    destruct (negb sp && (c_cur c =? cursor)) eqn:Ec.
    2: { apply wp_become, wp_ret. cbn.
         apply (move_inv (c :: cs0) tab thr k ar w s t (Cas j (c_ptr c) cursor) rest); auto.
         - apply (lock_same _ _ _ (Cas j (c_ptr c) cursor)); auto.
         - cbn. unfold c_base, HDR in *. repeat split; auto; lia. }
    assert (cursor = c_cur c) by lia. subst cursor.
    pose proof (chunk_alloc_ok amax (su_smax su) (su_bmax su) A bown ctx Hamax dbg
                  ext c cs0 ar w (live tab ++ rest) (job_layout j) R Hl Hs) as Hca. cbv zeta in Hca.
    rewrite Rm in Hca. destruct Hca as (_ & Hg & R2 & Hsame).
    destruct (req_ok_facts _ _ Hl) as (kk & _ & _ & Hpos & Hsz & _).
    destruct (round_up_spec (c_cur c) (l_align (job_layout j)) Hpos) as [Bd Hmod].
    set (ra := round_up (c_cur c) (l_align (job_layout j))) in *.
    set (n := ra + l_size (job_layout j)) in *.
    apply same_on_app in Hsame. destruct Hsame as [Hsame Hse]. apply same_on_app in Hsame. destruct Hsame as [Hs1 Hs2].
    apply wp_on_w, wp_mstore.
    set (w' := al_set_mem A w (store (al_mem A w) (c_ptr c + CURSOR) 8 n)) in *.
    apply wp_bind, wp_sub_usize; [unfold n; lia|].
    apply wp_bind, wp_debug_assert; [intros _; unfold n; lia|].
    apply wp_bind, wp_debug_assert; [intros _; lia|].
    replace (n - ra) with (l_size (job_layout j)) by (unfold n; lia).
    cbn [fst snd g_tab g_thr g_lock g_aw].
    assert (Hsh : forall h u, get h tab = Some u -> same_on [u] (bw_mem w) (bw_mem w')).
    { intros h u G v x [<-|[]] Hx. apply (Hs1 u); [apply live_in; eauto|exact Hx]. }
    assert (Hh' : rest_ok (set_cur c n :: cs0) w') by (apply (rest_keep _ _ _ (c :: cs0) _ w); auto).
    apply wp_bind. unfold allocated. destruct j as [l|h u old new|h u l]; [| |contradiction].
    - unfold wp. rewrite finish_eq. cbn [ret sevs fold_left sev].
      apply (finish_inv (c :: cs0) tab thr k ar w s t (Cas (JAlloc l) (c_ptr c) (c_cur c)) rest C Hp Nx
               (JAlloc l) false (Some (mkBlock ra (l_size l))) k ar w' (set_cur c n :: cs0)); auto.
      + apply (lock_same _ _ _ (Cas (JAlloc l) (c_ptr c) (c_cur c))); auto.
      + cbn [fin_tab b_ptr b_len]. rewrite live_app. cbn [live].
        apply (arep_perm _ _ _ _ _ _ _ (mkU ra (l_size l) l :: live tab ++ rest)); [|exact R2].
        rewrite <- app_assoc. cbn. apply Permutation_middle.
      + intros h u G _. apply (Hsh h u G).
    - apply wp_become, wp_ret, wp_ret. cbn [g_tab g_thr g_lock g_aw sevs fold_left sev].
      apply (Nx (Copy (JResize h u old new) (mkBlock ra (l_size new)) 0 false) tab k ar w' (set_cur c n :: cs0));
        cbn [g_tab g_thr g_lock g_aw fst snd]; auto.
      + cbn [hold b_ptr b_len]. apply (arep_perm _ _ _ _ _ _ _ (mkU ra (l_size new) new :: live tab ++ rest)); [|exact R2].
        cbn. apply Permutation_middle.
      + apply (agrees_same (bw_mem w) _ _ _ (live tab)); auto. apply incl_refl.
      + apply (lock_same _ _ _ (Cas (JResize h u old new) (c_ptr c) (c_cur c))); auto.
      + cbn. cbn in Hj. destruct Hj as (G & (F1 & F2) & Hn).
        assert (Hu : u_ok amax u).
        { pose proof (ar_ok _ _ _ _ _ _ _ _ R) as Ho. rewrite Forall_forall in Ho. apply Ho.
          apply in_or_app. left. apply live_in. eauto. }
        destruct Hu as (_ & _ & Hu).
        split; [split; [exact G|split; [split; assumption|exact Hn]]|]. split; [exact Hg|].
        split; [cbn in Hsz; lia|]. intros i Hi. lia.
      + intros h' u' _ G. split; [exact G|]. intros _. apply (Hsh h' u' G).
  Qed.

  Lemma tipload_step cs tab thr k ar w s t j r sp :
    xinvx cs (mkG tab thr k (ar, w)) s -> nth_error thr t = Some (TipLoad j r) ->
    wp (go su t (TipLoad j r) sp) (mkG tab thr k (ar, w)) (post s).
  Proof.
    intros C Hp. start_step C Hp rest R Nx. destruct Hj as (Hj & Hr & Hj2).
    destruct (xheader_of _ _ _ _ _ R Hr) as (c & cs0 & -> & -> & L1 & L2 & P & B & Hend).
    pose proof (su_amax_ok su Hok) as Hamax.
    destruct j as [l|h u old new|h u l]; try contradiction. cbn [go].
    cbn in Hj. destruct Hj as (G & (F1 & F2) & Hn).
    assert (Hu : u_ok amax u).
    { pose proof (ar_ok _ _ _ _ _ _ _ _ R) as Ho. rewrite Forall_forall in Ho. apply Ho.
      apply in_or_app. left. apply live_in. eauto. }
    pose proof Hu as ((G1 & G2 & G3 & G4) & _ & G5). cbn in G1, G2, G3, G4.
    apply wp_bind, wp_ptr_add; [lia|]. apply wp_on_w. eapply wp_mload; [exact L1|].
    cbn [fst snd g_tab g_thr g_lock g_aw].
    assert (Hjob : job_ok tab (JResize h u old new)) by (cbn; repeat split; auto; lia).
    assert (Hload : wp (become t (Load (JResize h u old new) (c_ptr c)) ;;; ret [])
              (mkG tab thr k (ar, w)) (post s)).
    { apply wp_become, wp_ret. cbn.
      apply (move_inv (c :: cs0) tab thr k ar w s t (TipLoad (JResize h u old new) (c_ptr c)) rest); auto.
      - apply (lock_same _ _ _ (TipLoad (JResize h u old new) (c_ptr c))); auto.
      - cbn [ConcFacts.pc_ok]. split; [exact Hjob|]. split; [exact I|]. exact Hr. }
    assert (Hretry : wp (retry t (JResize h u old new)) (mkG tab thr k (ar, w)) (post s)).
    { apply (retry_step (c :: cs0) tab thr k ar w s t (TipLoad (JResize h u old new) (c_ptr c)) _ rest); auto. exact I. }
    destruct (Z.eqb_spec (c_cur c) (u_ptr u + l_size old)) as [E|E]; [|exact Hload].
    unfold checked_add. destruct (Z.leb_spec (u_ptr u + l_size new) USIZE_MAX) as [Lu|Lu]; [|exact Hretry].
    apply wp_on_w. eapply wp_mload; [exact L2|]. cbn [fst snd g_tab g_thr g_lock g_aw].
    destruct (Z.ltb_spec (c_end c) (u_ptr u + l_size new)) as [Le|Le]; [exact Hretry|].
    apply wp_become, wp_ret. cbn.
    apply (move_inv (c :: cs0) tab thr k ar w s t (TipLoad (JResize h u old new) (c_ptr c)) rest); auto.
    - apply (lock_same _ _ _ (TipLoad (JResize h u old new) (c_ptr c))); auto.
    - cbn [ConcFacts.pc_ok]. split; [exact Hjob|]. destruct Hj2 as [Q1 Q2].
      split; [exact Q1|]. split; [exact Q2|]. split; [exact E|]. exists (c_end c).
      split; [split; reflexivity|lia].
  Qed.

  Lemma tipcas_step cs tab thr k ar w s t j r cursor sp :
    xinvx cs (mkG tab thr k (ar, w)) s -> nth_error thr t = Some (TipCas j r cursor) ->
    wp (go su t (TipCas j r cursor) sp) (mkG tab thr k (ar, w)) (post s).
  Proof.
    intros C Hp. start_step C Hp rest R Nx. destruct Hj as (Hjob & Hj2).
    destruct j as [l|h u old new|h u l]; try contradiction.
    destruct Hj2 as (Q1 & Q2 & -> & e & Hr & Q3).
    destruct (xheader_of _ _ _ _ r R (ex_intro _ e Hr)) as (c & cs0 & -> & -> & L1 & L2 & P & B & Hend).
    assert (e = c_end c) by (destruct Hr; congruence). subst e.
    pose proof (su_amax_ok su Hok) as Hamax. pose proof (su_smax_ok su Hok) as Hsm.
    cbn [go]. pose proof Hjob as Hj. cbn in Hj. destruct Hj as (G & F & Hn). pose proof F as (F1 & F2).
    assert (Hu : u_ok amax u).
    { pose proof (ar_ok _ _ _ _ _ _ _ _ R) as Ho. rewrite Forall_forall in Ho. apply Ho.
      apply in_or_app. left. apply live_in. eauto. }
    pose proof Hu as ((G1 & G2 & G3 & G4) & _ & G5). cbn in G1, G2, G3, G4.
    apply wp_bind, wp_ptr_add; [lia|]. apply wp_on_w. eapply wp_mload; [exact L1|].
    cbn [fst snd g_tab g_thr g_lock g_aw].
    set (p := TipCas (JResize h u old new) (c_ptr c) (u_ptr u + l_size old)) in *.
    destruct (Z.eqb_spec (c_cur c) (u_ptr u + l_size old)) as [E|E].
    2: { apply wp_become, wp_ret. cbn.
         apply (move_inv (c :: cs0) tab thr k ar w s t p rest); auto.
         - apply (lock_same _ _ _ p); auto.
         - cbn [ConcFacts.pc_ok]. split; [exact Hjob|]. split; [exact I|]. exists (c_end c). exact Hr. }
    apply wp_on_w, wp_mstore.
    set (w' := al_set_mem A w (store (al_mem A w) (c_ptr c + CURSOR) 8 (u_ptr u + l_size new))) in *.
    apply wp_bind, wp_sub_usize; [lia|].
    apply wp_bind, wp_debug_assert; [intros _; lia|].
    replace (u_ptr u + l_size new - u_ptr u) with (l_size new) by lia.
    cbn [fst snd g_tab g_thr g_lock g_aw].
    destruct (tab_split _ _ _ G) as (l0 & P1 & P2 & _ & P3).
    assert (R1 : brep ext (c :: cs0) ar w (u :: l0 ++ rest)).
    { apply (arep_perm _ _ _ _ _ _ _ (live tab ++ hold p ++ rest)); [|exact R]. cbn. rewrite P1. reflexivity. }
    pose proof (chunk_resize_ok amax (su_smax su) (su_bmax su) A bown ctx Hamax dbg
                  ext c cs0 ar w u (l0 ++ rest) old new R1 F Hn Hsm) as Hcr.
    unfold wp in Hcr.
    rewrite (chunk_resize_eq (su_smax su) A dbg (c_ptr c) (u_ptr u) old new (c_cur c) (c_end c) w Hn Hsm) in Hcr
      by (auto; unfold c_base, HDR in *; lia).
    replace ((l_align new <=? l_align old) && (l_size new <=? l_size old)) with false in Hcr by lia.
    replace ((l_align new <=? l_align old) && (c_cur c =? u_ptr u + l_size old)) with true in Hcr by lia.
    replace (u_ptr u + l_size new <=? c_end c) with true in Hcr by lia.
    destruct Hcr as (_ & Hsame & Hg & (n & Hnn & R2) & Hcopy). cbn [b_ptr b_len] in *.
    fold w' in R2, Hsame, Hcopy.
    apply same_on_app in Hsame. destruct Hsame as [Hsame Hse]. apply same_on_app in Hsame. destruct Hsame as [Hs1 Hs2].
    assert (Hh' : rest_ok (set_cur c n :: cs0) w') by (apply (rest_keep _ _ _ (c :: cs0) _ w); auto).
    apply wp_bind. unfold wp. rewrite finish_eq. cbn [ret sevs fold_left sev].
    apply (finish_inv (c :: cs0) tab thr k ar w s t p rest C Hp Nx
             (JResize h u old new) false (Some (mkBlock (u_ptr u) (l_size new))) k ar w' (set_cur c n :: cs0)); auto.
    - apply (lock_same _ _ _ p); auto.
    - cbn [fin_tab b_ptr b_len].
      apply (arep_perm _ _ _ _ _ _ _ (mku (mkBlock (u_ptr u) (l_size new)) new :: l0 ++ rest)); [|exact R2].
      rewrite (P2 _). reflexivity.
    - intros h' u' G' Nh v x [<-|[]] Hx. apply (Hs1 u'); [|exact Hx]. apply (P3 h'); auto.
      intros ->. apply Nh. reflexivity.
  Qed.

  Lemma freecas_step cs tab thr k ar w s t j r sp :
    xinvx cs (mkG tab thr k (ar, w)) s -> nth_error thr t = Some (FreeCas j r) ->
    wp (go su t (FreeCas j r) sp) (mkG tab thr k (ar, w)) (post s).
  Proof.
    intros C Hp. start_step C Hp rest R Nx. destruct Hj as (Hj & Hr & Hj2).
    destruct (xheader_of _ _ _ _ _ R Hr) as (c & cs0 & -> & -> & L1 & L2 & P & B & Hend).
    destruct j as [l|h u old new|h u l]; try contradiction. cbn [go].
    set (p := FreeCas (JDealloc h u l) (c_ptr c)) in *.
    pose proof Hj as (G & F). pose proof F as (F1 & F2).
    destruct (tab_split _ _ _ G) as (l0 & P1 & _ & P2 & P3).
    assert (R1 : brep ext (c :: cs0) ar w (u :: l0 ++ rest)).
    { apply (arep_perm _ _ _ _ _ _ _ (live tab ++ hold p ++ rest)); [|exact R]. cbn. rewrite P1. reflexivity. }
    assert (Hu : u_ok amax u).
    { pose proof (ar_ok _ _ _ _ _ _ _ _ R1) as Ho. inversion Ho; assumption. }
    destruct Hu as (_ & _ & Hu).
    apply wp_on_w. eapply wp_mono.
    { apply (chunk_dealloc_ok amax (su_bmax su) A bown ctx (su_amax_ok su Hok) ext c cs0 ar w u (l0 ++ rest) (l_size l) R1). lia. }
    intros _ w' (Q & Hsame & R2). cbn [fst snd g_tab g_thr g_lock g_aw].
    apply same_on_app in Hsame. destruct Hsame as [Hsame Hse]. apply same_on_cons in Hsame. destruct Hsame as [Hs0 Hsame].
    apply same_on_app in Hsame. destruct Hsame as [Hs1 Hs2].
    unfold wp. rewrite finish_eq. cbn [sevs fold_left sev].
    apply (finish_inv (c :: cs0) tab thr k ar w s t p rest C Hp Nx
             (JDealloc h u l) false None k ar w' (c :: cs0)); auto.
    - apply (lock_same _ _ _ p); auto.
    - cbn [fin_tab]. rewrite P2. apply (arep_drop _ _ _ _ _ _ _ u). exact R2.
    - apply (rest_keep _ _ _ (c :: cs0) _ w); auto.
    - intros h' u' G' Nh v x [<-|[]] Hx. apply (Hs1 u'); [|exact Hx]. apply (P3 h'); auto.
      intros ->. apply Nh. reflexivity.
  Qed.

  (** *** Copying *)

  Lemma copy_step cs tab thr k ar w s t j b i wr sp :
    xinvx cs (mkG tab thr k (ar, w)) s -> nth_error thr t = Some (Copy j b i wr) ->
    wp (go su t (Copy j b i wr) sp) (mkG tab thr k (ar, w)) (post s).
  Proof.
    intros C Hp. start_step C Hp rest R Nx. destruct Hj as (Hj & Hj2).
    destruct j as [l|h u old new|h u l]; try contradiction. cbn [go].
    destruct Hj2 as (Hg & Hi & Hpre). pose proof Hj as (G & (F1 & F2) & Hn).
    set (p := Copy (JResize h u old new) b i wr) in *.
    destruct (tab_split _ _ _ G) as (l0 & P1 & P2 & _ & P3).
    cbn [hold app] in R. unfold p in R; cbn [hold app] in R.
    set (v := mkU (b_ptr b) (b_len b) new) in *.
    assert (R1 : brep ext cs ar w (v :: u :: l0 ++ rest)).
    { apply (arep_perm _ _ _ _ _ _ _ (live tab ++ v :: rest)); [|exact R].
      rewrite P1. cbn. rewrite <- Permutation_middle. apply perm_swap. }
    pose proof (ar_disj _ _ _ _ _ _ _ _ R1) as Hd. cbn [pairwise] in Hd. destruct Hd as (Hd1 & Hd2 & _).
    inversion Hd1 as [|? ? Dvu Dv]; subst.
    assert (Hu : u_ok amax u).
    { pose proof (ar_ok _ _ _ _ _ _ _ _ R1) as Ho. inversion Ho as [|? ? _ Ho2]; inversion Ho2; assumption. }
    destruct Hu as (_ & _ & Hu).
    destruct Hg as (G1 & G2 & G3 & G4).
    set (n := Z.min (l_size new) (l_size old)) in *.
    replace ((n =? 0) || (u_ptr u + n <=? b_ptr b) || (b_ptr b + n <=? u_ptr u)) with true.
    2: { symmetry. pose proof (Dvu (b_ptr b)) as D1. pose proof (Dvu (u_ptr u)) as D2.
         unfold in_u, v in D1, D2; cbn in D1, D2. lia. }
    cbn [negb]. destruct (Z.ltb_spec i n) as [Lt|Ge].
    - apply wp_on_w. cbn [fst snd g_tab g_thr g_lock g_aw]. unfold wp at 1.
      set (m' := copy (al_mem A w) (u_ptr u + i) (b_ptr b + i) 1).
      assert (Hm' : forall x, ~ in_u x v -> m' x = bw_mem w x).
      { intros x Hx. apply copy_other. unfold in_u, v in Hx; cbn in Hx. lia. }
      destruct (arep_write_us _ _ _ _ ctx _ _ _ _ _ m' R1) as [R2 Hse].
      { intros x Hx. apply Hm'. apply Hx. left; reflexivity. }
      assert (Hh' : rest_ok cs (al_set_mem A w m')) by (apply (rest_keep _ _ _ cs _ w); auto).
      assert (Hs : forall z, In z (u :: l0 ++ rest) -> same_on [z] (bw_mem w) m').
      { intros z Hz y x [<-|[]] Hx. apply Hm'. intros Hxv.
        rewrite Forall_forall in Hd1. apply (Hd1 z Hz x Hxv Hx). }
      apply wp_become, wp_ret. cbn [g_tab g_thr g_lock g_aw sevs fold_left].
      apply (Nx (Copy (JResize h u old new) b (i + 1) wr) tab k ar (al_set_mem A w m') cs);
        cbn [g_tab g_thr g_lock g_aw fst snd]; auto.
      + cbn [hold app]. fold v. apply (arep_perm _ _ _ _ _ _ _ (v :: u :: l0 ++ rest)); [|exact R2].
        rewrite P1. cbn. rewrite perm_swap. apply perm_skip. apply Permutation_middle.
      + apply (agrees_same (bw_mem w) _ _ _ (live tab)); auto; [apply incl_refl|].
        intros z x Hz Hx. assert (Hz' : In z (u :: l0)) by (rewrite <- P1; exact Hz).
        apply (Hs z) with (u := z); [|left; reflexivity|exact Hx]. destruct Hz' as [<-|Hz']; [left; reflexivity|].
        right. apply in_or_app; auto.
      + apply (lock_same _ _ _ p); auto.
      + cbn [ConcFacts.pc_ok]. split; [exact Hj|]. split; [split; [exact G1|split; [exact G2|split; assumption]]|].
        fold n. split; [lia|]. intros z Hz. cbn [al_set_mem bot base bw_mem].
        destruct (Z.eq_dec z i) as [->|Nz].
        * unfold m'. rewrite copy_in by lia. rewrite copy_other.
          -- f_equal. lia.
          -- pose proof (Dvu (u_ptr u + i)) as D. unfold in_u, v in D; cbn in D. lia.
        * unfold m'. rewrite !copy_other; [apply Hpre; lia| |lia].
          pose proof (Dvu (u_ptr u + z)) as D. unfold in_u, v in D; cbn in D. lia.
      + intros h' u' _ G'. split; [exact G'|]. intros _. apply Hs.
        assert (Hz' : In u' (u :: l0)) by (rewrite <- P1; apply live_in; eauto).
        destruct Hz' as [<-|Hz']; [left; reflexivity|]. right. apply in_or_app; auto.
      + intros z x Hz Hx. apply (Hs z) with (u := z); [|left; reflexivity|exact Hx].
        right. apply in_or_app; auto.
    - assert (i = n) by lia. subst i.
      unfold wp. rewrite finish_eq. cbn [sevs fold_left sev].
      apply (finish_inv cs tab thr k ar w s t p rest C Hp Nx
             (JResize h u old new) wr (Some b) k ar w cs); auto.
      + apply (lock_same _ _ _ p); auto.
      + cbn [fin_tab]. fold v. apply (arep_perm _ _ _ _ _ _ _ (v :: l0 ++ rest)).
        { rewrite (P2 _). reflexivity. }
        apply (arep_drop _ _ _ _ _ _ _ u). eapply arep_perm; [apply perm_swap|exact R1].
      + intros h' u' _ _. apply same_on_refl.
      + apply same_on_refl.
  Qed.

  (** *** Releasing and taking the lock *)

  Lemma unlock_step cs tab thr k ar w s t wr nxt h sp :
    xinvx cs (mkG tab thr k (ar, w)) s -> nth_error thr t = Some (Unlock wr nxt h) ->
    wp (go su t (Unlock wr nxt h) sp) (mkG tab thr k (ar, w)) (post s).
  Proof.
    intros C Hp. start_step C Hp rest R Nx. cbn [go].
    apply wp_get_g, wp_put_lock.
    destruct nxt as [j|]; apply wp_become, wp_ret; cbn [g_tab g_thr g_lock g_aw sevs fold_left sev].
    - apply (move_inv cs tab thr k ar w s t (Unlock wr (Some j) h) rest); auto.
      + intros h'. cbn. destruct Hj as (_ & _ & ->). auto.
      + apply (lock_release k thr t (Unlock wr (Some j) h)); auto.
      + cbn. tauto.
    - apply (move_inv cs tab thr k ar w s t (Unlock wr None h) rest); auto.
      + cbn. discriminate.
      + apply (lock_release k thr t (Unlock wr None h)); auto.
      + cbn. exact I.
  Qed.

  Lemma wantwrite_step cs tab thr k ar w s t j sp :
    xinvx cs (mkG tab thr k (ar, w)) s -> nth_error thr t = Some (WantWrite j) ->
    wp (go su t (WantWrite j) sp) (mkG tab thr k (ar, w)) (post s).
  Proof.
    intros C Hp. start_step C Hp rest R Nx. cbn [go]. apply wp_get_g. cbn [g_lock].
    assert (Hstay : wp (ret []) (mkG tab thr k (ar, w)) (post s)).
    { apply wp_ret. exists cs. exact C. }
    destruct (lk_writer k) as [t'|] eqn:Ew; [exact Hstay|].
    destruct (lk_readers k) as [|t' rs] eqn:Er; [|exact Hstay].
    apply wp_put_lock, wp_become, wp_ret. cbn [g_tab g_thr g_lock g_aw sevs fold_left].
    apply (move_inv cs tab thr k ar w s t (WantWrite j) rest); auto.
    apply (lock_write k thr t (WantWrite j)); auto.
  Qed.

  Lemma slow_step cs tab thr k ar w s t j sp :
    xinvx cs (mkG tab thr k (ar, w)) s -> nth_error thr t = Some (Slow j) ->
    wp (go su t (Slow j) sp) (mkG tab thr k (ar, w)) (post s).
  Proof.
    intros C Hp. start_step C Hp rest R Nx. destruct Hj as (Hj & Tj). cbn [hold app] in R.
    assert (Hl : req_ok (su_smax su) (job_layout j)).
    { destruct j; cbn in Hj |- *; [exact Hj|tauto|contradiction]. }
    cbn [go]. apply wp_on_aw. unfold arena_alloc_slow. apply wp_with_aw. cbn [fst snd g_aw]. apply wp_bind.
    pose proof (su_cfg su Hok) as Hcfg. rewrite <- Hm in Hcfg.
    eapply wp_mono.
    { apply (alloc_slow_ok amax (su_smax su) (su_bmax su) A bown ctx (su_amax_ok su Hok) dbg
               ext cs ar w (live tab ++ rest) (job_layout j) R Hl (cfg_ok_for Hcfg)). }
    intros r w' (Hsame & Hr). apply same_on_app in Hsame. destruct Hsame as [Hsame Hse].
    apply same_on_app in Hsame. destruct Hsame as [Hs1 Hs2].
    assert (Hsh : forall h u, get h tab = Some u -> same_on [u] (bw_mem w) (bw_mem w')).
    { intros h u G v x [<-|[]] Hx. apply (Hs1 u); [apply live_in; eauto|exact Hx]. }
    destruct r as [[b q]|].
    - destruct Hr as (Hg & Hbl & c & Hi & <- & _ & _ & R2).
      apply wp_ret. cbn [g_tab g_thr g_lock g_aw fst snd].
      assert (Hh' : rest_ok (c :: cs) w').
      { unfold ConcFacts.rest_ok in *. destruct sole; [|eapply same_on_trans; eassumption].
        destruct Hh as [He Hh]. split; [exact He|].
        destruct Hi as (_ & w1 & Ew & Q). rewrite (quiet_trace su _ _ Q).
        pose proof (j_alloc _ _ (held_jinv su) (map c_u cs) w w1 _ _ Hh Ew) as X.
        cbn in X |- *. unfold held_j in X. rewrite <- X. cbn. destruct (c_u c); reflexivity. }
      unfold allocated. destruct j as [l|h u old new|h u l]; [| |contradiction].
      + unfold wp. rewrite finish_eq. cbn [sevs fold_left sev g_tab g_thr g_lock g_aw].
        apply (finish_inv cs tab thr k ar w s t (Slow (JAlloc l)) rest C Hp Nx
                 (JAlloc l) true (Some b) k _ w' (c :: cs)); auto.
        * apply (lock_same _ _ _ (Slow (JAlloc l))); auto.
        * cbn [fin_tab]. rewrite live_app. cbn [live].
          apply (arep_perm _ _ _ _ _ _ _ (mku b l :: live tab ++ rest)); [|exact R2].
          rewrite <- app_assoc. cbn. apply Permutation_middle.
        * intros h u G _. apply (Hsh h u G).
      + apply wp_become, wp_ret. cbn [g_tab g_thr g_lock g_aw sevs fold_left sev].
        apply (Nx (Copy (JResize h u old new) b 0 true) tab k _ w' (c :: cs));
          cbn [g_tab g_thr g_lock g_aw fst snd]; auto.
        * cbn [hold]. apply (arep_perm _ _ _ _ _ _ _ (mku b new :: live tab ++ rest)); [|exact R2].
          cbn. apply Permutation_middle.
        * apply (agrees_same (bw_mem w) _ _ _ (live tab)); auto. apply incl_refl.
        * apply (lock_same _ _ _ (Slow (JResize h u old new))); auto.
        * cbn. cbn in Hj. destruct Hj as (G & (F1 & F2) & Hn).
          assert (Hu : u_ok amax u).
          { pose proof (ar_ok _ _ _ _ _ _ _ _ R) as Ho. rewrite Forall_forall in Ho. apply Ho.
            apply in_or_app. left. apply live_in. eauto. }
          destruct Hu as (_ & _ & Hu). destruct (req_ok_facts _ _ Hn) as (kk & _ & _ & _ & Hsz & _).
          split; [split; [exact G|split; [split; assumption|exact Hn]]|]. split; [exact Hg|].
          split; [lia|]. intros i Hi'. lia.
        * intros h' u' _ G. split; [exact G|]. intros _. apply (Hsh h' u' G).
    - destruct Hr as (Hi & R2). apply wp_ret. cbn [g_tab g_thr g_lock g_aw fst snd].
      assert (Hh' : rest_ok cs w').
      { unfold ConcFacts.rest_ok in *. destruct sole; [|eapply same_on_trans; eassumption].
        destruct Hh as [He Hh]. split; [exact He|]. destruct Hi as [[_ ->]|(lay & _ & Ew)]; [exact Hh|].
        pose proof (j_alloc _ _ (held_jinv su) (map c_u cs) w w' _ _ Hh Ew) as X. exact X. }
      unfold wp. rewrite finish_eq. cbn [sevs fold_left sev g_tab g_thr g_lock g_aw].
      apply (finish_inv cs tab thr k ar w s t (Slow j) rest C Hp Nx j true None k ar w' cs); auto.
      + apply (lock_same _ _ _ (Slow j)); auto.
      + destruct j; [exact R2|exact R2|contradiction].
      + intros h u G _. apply (Hsh h u G).
      + destruct j as [l|h u old new|h u l]; auto. apply (Hsh h u). apply Hj.
  Qed.

  Lemma go_step cs g s t p sp :
    xinvx cs g s -> nth_error (g_thr g) t = Some p -> wp (go su t p sp) g (post s).
  Proof.
    destruct g as [tab thr k [ar w]]. cbn [g_thr]. intros C Hp. destruct p.
    - apply wp_ret. exists cs. exact C.
    - cbn [go]. apply wp_get_g. cbn [g_lock]. destruct (lk_writer k) eqn:E.
      + apply wp_ret. exists cs. exact C.
      + apply wp_put_lock. cbn [g_tab g_thr g_lock g_aw fst]. apply (enter_step cs); auto.
    - apply (load_step cs); auto.
    - apply (cas_step cs); auto.
    - apply (tipload_step cs); auto.
    - apply (tipcas_step cs); auto.
    - apply (freecas_step cs); auto.
    - apply (copy_step cs); auto.
    - apply (unlock_step cs); auto.
    - apply (wantwrite_step cs); auto.
    - apply (slow_step cs); auto.
  Qed.

  (** ** Old values of the cursor *)

  Lemma wp_old_value {C} c cs0 tab thr k ar w us v (f : bool -> M gst C) Q :
    brep ext (c :: cs0) ar w us -> 
    (forall b, b = (c_base c <=? v) && (v <=? c_cur c) -> wp (f b) (mkG tab thr k (ar, w)) Q) ->
    wp (bind (old_value su (c_ptr c) v) f) (mkG tab thr k (ar, w)) Q.
  Proof.
    intros R H. destruct (xheader_of _ _ _ _ (c_ptr c) R) as (c' & cs0' & E & _ & L1 & _).
    { exists (c_end c). split; reflexivity. }
    inversion E; subst c' cs0'. apply wp_bind. unfold old_value. apply wp_on_w. eapply wp_mload; [exact L1|].
    apply wp_ret. apply H. reflexivity.
  Qed.

  Lemma stale_step cs g s t p v :
    xinvx cs g s -> nth_error (g_thr g) t = Some p -> wp (stale su t p v) g (post s).
  Proof.
    destruct g as [tab thr k [ar w]]. cbn [g_thr]. intros C Hp.
    assert (Hstay : wp (ret []) (mkG tab thr k (ar, w)) (post s)) by (apply wp_ret; exists cs; exact C).
    destruct p; try exact Hstay; start_step C Hp rest R Nx.
    - destruct Hj as (Hj & Tj & Hr).
      destruct (xheader_of _ _ _ _ _ R Hr) as (c & cs0 & -> & -> & L1 & L2 & P & B & _).
      cbn [stale]. apply (wp_old_value c cs0 _ _ _ _ _ _ _ _ _ R). intros b Eb. destruct b; [|exact Hstay].
      apply wp_become, wp_ret. cbn.
      apply (move_inv (c :: cs0) tab thr k ar w s t (Load j (c_ptr c)) rest); auto.
      + apply (lock_same _ _ _ (Load j (c_ptr c))); auto.
      + cbn. unfold c_base, HDR in *. repeat split; auto; lia.
    - destruct Hj as (Hj & Tj & Hcur & Hr).
      destruct (xheader_of _ _ _ _ _ R Hr) as (c & cs0 & -> & -> & L1 & L2 & P & B & Hend).
      assert (Hl : req_ok (su_smax su) (job_layout j)).
      { destruct j; cbn in Hj |- *; [exact Hj|tauto|contradiction]. }
      pose proof (su_smax_ok su Hok) as Hs. pose proof (su_amax_ok su Hok) as Hamax.
      cbn [stale]. apply wp_on_w. eapply wp_mload; [exact L2|].
      apply wp_on_w. eapply wp_intro; [apply (alloc_attempt_eq dbg _ _ _ (su_smax su)); auto; lia|].
      cbn [fst snd g_tab g_thr g_lock g_aw].
      destruct (room cursor (c_end c) (job_layout j)) eqn:Rm.
      2: { apply (retry_step (c :: cs0) tab thr k ar w s t (Cas j (c_ptr c) cursor) j rest); auto. }
      apply (wp_old_value c cs0 _ _ _ _ _ _ _ _ _ R). intros b Eb. destruct b; [|exact Hstay].
      apply wp_become, wp_ret. cbn.
      apply (move_inv (c :: cs0) tab thr k ar w s t (Cas j (c_ptr c) cursor) rest); auto.
      + apply (lock_same _ _ _ (Cas j (c_ptr c) cursor)); auto.
      + cbn. unfold c_base, HDR in *. repeat split; auto; lia.
    - destruct Hj as (Hj & Hr & Hj2).
      destruct (xheader_of _ _ _ _ _ R Hr) as (c & cs0 & -> & -> & L1 & L2 & P & B & Hend).
      pose proof (su_amax_ok su Hok) as Hamax.
      destruct j as [l|h u old new|h u l]; try contradiction. cbn [stale].
      cbn in Hj. destruct Hj as (G & (F1 & F2) & Hn).
      assert (Hu : u_ok amax u).
      { pose proof (ar_ok _ _ _ _ _ _ _ _ R) as Ho. rewrite Forall_forall in Ho. apply Ho.
        apply in_or_app. left. apply live_in. eauto. }
      pose proof Hu as ((G1 & G2 & G3 & G4) & _ & G5). cbn in G1, G2, G3, G4.
      apply wp_bind, wp_ptr_add; [lia|].
      apply (wp_old_value c cs0 _ _ _ _ _ _ _ _ _ R). intros b Eb. destruct b; [|exact Hstay].
      assert (Hjob : job_ok tab (JResize h u old new)) by (cbn; repeat split; auto; lia).
      assert (Hload : wp (become t (Load (JResize h u old new) (c_ptr c)) ;;; ret [])
                (mkG tab thr k (ar, w)) (post s)).
      { apply wp_become, wp_ret. cbn.
        apply (move_inv (c :: cs0) tab thr k ar w s t (TipLoad (JResize h u old new) (c_ptr c)) rest); auto.
        - apply (lock_same _ _ _ (TipLoad (JResize h u old new) (c_ptr c))); auto.
        - cbn [ConcFacts.pc_ok]. split; [exact Hjob|]. split; [exact I|]. exact Hr. }
      assert (Hretry : wp (retry t (JResize h u old new)) (mkG tab thr k (ar, w)) (post s)).
      { apply (retry_step (c :: cs0) tab thr k ar w s t (TipLoad (JResize h u old new) (c_ptr c)) _ rest); auto. exact I. }
      destruct (Z.eqb_spec v (u_ptr u + l_size old)) as [E|E]; [|exact Hload].
      unfold checked_add. destruct (Z.leb_spec (u_ptr u + l_size new) USIZE_MAX) as [Lu|Lu]; [|exact Hretry].
      apply wp_on_w. eapply wp_mload; [exact L2|]. cbn [fst snd g_tab g_thr g_lock g_aw].
      destruct (Z.ltb_spec (c_end c) (u_ptr u + l_size new)) as [Le|Le]; [exact Hretry|].
      apply wp_become, wp_ret. cbn.
      apply (move_inv (c :: cs0) tab thr k ar w s t (TipLoad (JResize h u old new) (c_ptr c)) rest); auto.
      + apply (lock_same _ _ _ (TipLoad (JResize h u old new) (c_ptr c))); auto.
      + cbn [ConcFacts.pc_ok]. split; [exact Hjob|]. destruct Hj2 as [Q1 Q2].
        split; [exact Q1|]. split; [exact Q2|]. split; [exact E|]. exists (c_end c).
        split; [split; reflexivity|lia].
    - destruct Hj as (Hjob & Hj2). destruct j as [l|h u old new|h u l]; try contradiction.
      destruct Hj2 as (Q1 & Q2 & -> & e & Hr & Q3).
      destruct (xheader_of _ _ _ _ r R (ex_intro _ e Hr)) as (c & cs0 & -> & -> & _).
      cbn [stale]. apply (wp_old_value c cs0 _ _ _ _ _ _ _ _ _ R). intros b Eb.
      destruct (b && _); [|exact Hstay].
      set (p := TipCas (JResize h u old new) (c_ptr c) (u_ptr u + l_size old)) in *.
      apply wp_become, wp_ret. cbn.
      apply (move_inv (c :: cs0) tab thr k ar w s t p rest); auto.
      + apply (lock_same _ _ _ p); auto.
      + cbn [ConcFacts.pc_ok]. split; [exact Hjob|]. split; [exact I|]. exists e. exact Hr.
    - destruct Hj as (Hj & Hr & Hj2).
      destruct (xheader_of _ _ _ _ _ R Hr) as (c & cs0 & -> & -> & _).
      destruct j as [l|h u old new|h u l]; try contradiction.
      cbn [stale]. apply (wp_old_value c cs0 _ _ _ _ _ _ _ _ _ R). intros b Eb.
      destruct (b && _); [|exact Hstay].
      set (p := FreeCas (JDealloc h u l) (c_ptr c)) in *.
      pose proof Hj as (G & F). destruct (tab_split _ _ _ G) as (l0 & P1 & _ & P2 & P3).
      assert (R1 : brep ext (c :: cs0) ar w (u :: l0 ++ rest)).
      { apply (arep_perm _ _ _ _ _ _ _ (live tab ++ hold p ++ rest)); [|exact R]. cbn. rewrite P1. reflexivity. }
      unfold wp. rewrite finish_eq. cbn [sevs fold_left sev].
      apply (finish_inv (c :: cs0) tab thr k ar w s t p rest C Hp Nx
               (JDealloc h u l) false None k ar w (c :: cs0)); auto.
      + apply (lock_same _ _ _ p); auto.
      + cbn [fin_tab]. rewrite P2. apply (arep_drop _ _ _ _ _ _ _ u). exact R1.
      + intros. apply same_on_refl.
      + apply same_on_refl.
  Qed.

  Lemma away_hold thr : forallb away thr = true -> flat_map hold thr = [].
  Proof.
    induction thr as [|p thr IH]; cbn; [reflexivity|]. intros H. apply andb_true_iff in H.
    destruct H as [H1 H2]. destruct p; try discriminate; cbn; auto.
  Qed.

  Lemma idle_at thr t p : forallb is_idle thr = true -> nth_error thr t = Some p -> p = Idle.
  Proof.
    intros H Hp. rewrite forallb_forall in H. specialize (H p (nth_error_In _ _ Hp)).
    destruct p; try discriminate; reflexivity.
  Qed.

  Lemma away_at thr t p : forallb away thr = true -> nth_error thr t = Some p -> away p = true.
  Proof. intros H Hp. rewrite forallb_forall in H. apply (H p (nth_error_In _ _ Hp)). Qed.

  Lemma idle_away thr : forallb is_idle thr = true -> forallb away thr = true.
  Proof.
    rewrite !forallb_forall. intros H p Hp. specialize (H p Hp). destruct p; try discriminate; reflexivity.
  Qed.

  Lemma away_handle p : away p = true -> pc_handle p = None.
  Proof. destruct p; cbn; try discriminate; try reflexivity; destruct j; try discriminate; reflexivity. Qed.

  (** Resetting while nobody holds the lock or works on a block. *)
  Lemma reset_step cs g s keep es :
    xinvx cs g s -> forallb away (g_thr g) = true -> sevs es s = sstep (OpReset keep) None s ->
    wp (on_aw (do_reset su keep) ;;; put_tab (map (fun _ => None)) ;;; ret es) g (post s).
  Proof.
    destruct g as [tab thr k [ar w]]. intros C Ei He. cbn [g_thr] in Ei.
    destruct C as (R & Hh & Hm & Ha & Hlk & Hpc & Hd). cbn [g_tab g_thr g_lock g_aw fst snd] in *.
    rewrite (away_hold _ Ei), app_nil_r in R.
    apply wp_on_aw. cbn [g_aw].
    assert (Hend : forall cs' aw', brep ext cs' (fst aw') (snd aw') [] ->
              rest_ok cs' (snd aw') -> ar_min (fst aw') = ar_min ar ->
              wp (put_tab (map (fun _ => None)) ;;; ret es)
                 (mkG tab thr k aw') (post s)).
    { intros cs' [ar' w'] R' Hh' Hm'. apply wp_put_tab, wp_ret. cbn [fst snd] in *. rewrite He.
      exists cs'. unfold ConcFacts.xinvx. cbn [g_tab g_thr g_lock g_aw fst snd sstep].
      rewrite live_none, (away_hold _ Ei). cbn [app].
      split; [exact R'|]. split; [exact Hh'|]. split; [congruence|].
      split; [apply (agrees_none (bw_mem w)); exact Ha|]. split; [exact Hlk|]. split.
      - intros t p Hp. pose proof (away_at _ _ _ Ei Hp) as Hw. pose proof (Hpc _ _ Hp) as Hj.
        destruct p; try discriminate; [exact I| |]; destruct j; try discriminate; exact Hj.
      - intros t1 t2 p1 p2 h H1 H2 E1. rewrite (away_handle _ (away_at _ _ _ Ei H1)) in E1. discriminate. }
    destruct keep.
    - eapply wp_mono; [apply (arena_reset_keep_ok amax (su_bmax su) A bown ctx ext cs ar w (live tab) R)|].
      intros _ [ar' w'] (S1 & M1 & H). cbn [fst snd g_tab g_thr g_lock] in *. destruct cs as [|c cs].
      + inversion H; subst ar' w'. apply (Hend []); auto.
        destruct R as [R1 R2 R3 R4 R5 R6 R7 R8]. constructor; auto; constructor.
      + apply (Hend [set_cur c (c_base c)]); auto. cbn [snd].
        unfold ConcFacts.rest_ok in *. destruct sole; [|eapply same_on_trans; eassumption].
        destruct Hh as [Hx Hh]. split; [exact Hx|]. rewrite Hx in H.
        pose proof (ar_own _ _ _ _ _ _ _ _ H) as [[_ P] _]. cbn in P.
        apply Permutation_length_1_inv in P. cbn. symmetry. exact P.
    - eapply wp_mono; [apply (arena_reset_final_ok amax (su_bmax su) A bown ctx ext cs ar w (live tab) R)|].
      intros _ [ar' w'] (S1 & M1 & M2 & [[_ P] _] & H). cbn [fst snd g_tab g_thr g_lock] in *.
      apply (Hend []); auto. cbn [snd].
      unfold ConcFacts.rest_ok in *. destruct sole; [|eapply same_on_trans; eassumption].
      destruct Hh as [Hx Hh]. split; [exact Hx|]. rewrite Hx in P. apply Permutation_nil in P. cbn. symmetry. exact P.
  Qed.

  Lemma exclusive_step cs g s keep :
    xinvx cs g s -> wp (cstep su (Exclusive keep)) g (post s).
  Proof.
    intros C. unfold cstep. apply wp_get_g.
    destruct (forallb is_idle (g_thr g)) eqn:Ei; [|apply wp_ret; exists cs; exact C].
    apply (reset_step cs); auto. apply idle_away. exact Ei.
  Qed.

  (** ** Beginning a call *)

  Lemma begin_step cs g s t o :
    xinvx cs g s -> nth_error (g_thr g) t = Some Idle -> wp (begin su t o) g (post s).
  Proof.
    destruct g as [tab thr k [ar w]]. cbn [g_thr]. intros C Hp.
    start_step C Hp rest R Nx. unfold begin. apply wp_get_g. cbn [g_tab g_thr].
    assert (Hstay : wp (ret []) (mkG tab thr k (ar, w)) (post s)) by (apply wp_ret; exists cs; exact C).
    assert (Hbegin : forall j, job_ok tab j ->
              (forall h, job_handle j = Some h -> busy h thr = false) ->
              wp (become t (WantRead j) ;;; ret [Call t o]) (mkG tab thr k (ar, w)) (post s)).
    { intros j Hj' Hb. apply wp_become, wp_ret. cbn [g_tab g_thr g_lock g_aw sevs fold_left sev].
      apply (Nx (WantRead j) tab k ar w cs); cbn [g_tab g_thr g_lock g_aw fst snd]; auto.
      - apply (lock_same _ _ _ Idle); auto.
      - intros h u _ G. split; [exact G|]. intros _. apply same_on_refl.
      - apply same_on_refl. }
    destruct o as [l z|h off cl|h l|h old new|h old new|keep]; try exact Hstay.
    - destruct z; [exact Hstay|]. destruct (req_okb (su_smax su) l) eqn:E; [|exact Hstay].
      apply Hbegin; [exact E|]. cbn. discriminate.
    - destruct (get h tab) as [u|] eqn:G; [|exact Hstay].
      destruct (negb (busy h thr) && (0 <=? off) && (off + Z.of_nat (length cl) <=? u_len u)) eqn:E; [|exact Hstay].
      apply andb_true_iff in E. destruct E as [E E3]. apply andb_true_iff in E. destruct E as [E1 E2].
      apply negb_true_iff in E1.
      apply wp_on_w. unfold wp. cbn [fst snd g_tab g_thr g_lock g_aw ret sevs fold_left sev option_map].
      destruct (tab_split _ _ _ G) as (l0 & P1 & P2 & _ & P3). cbn [hold app] in R.
      assert (R1 : brep ext cs ar w (u :: l0 ++ rest)).
      { apply (arep_perm _ _ _ _ _ _ _ (live tab ++ rest)); [|exact R]. rewrite P1. reflexivity. }
      set (m' := write_cells (al_mem A w) (u_ptr u + off) cl).
      assert (Hm' : forall x, ~ in_u x u -> m' x = bw_mem w x).
      { intros x Hx. apply write_cells_other. unfold in_u in Hx. lia. }
      destruct (arep_write_us _ _ _ _ ctx _ _ _ _ _ m' R1) as [R2 Hse].
      { intros x Hx. apply Hm'. apply Hx. left; reflexivity. }
      assert (Hh' : rest_ok cs (al_set_mem A w m')) by (apply (rest_keep _ _ _ cs _ w); auto).
      assert (Hs : same_on (l0 ++ rest) (bw_mem w) m').
      { intros z x Hz Hx. apply Hm'. intros Hxv.
        pose proof (ar_disj _ _ _ _ _ _ _ _ R1) as [Hd _]. rewrite Forall_forall in Hd.
        apply (Hd z Hz x Hxv Hx). }
      replace thr with (set_nth t Idle thr) by (apply set_nth_same; exact Hp).
      apply (Nx Idle tab k ar (al_set_mem A w m') cs); cbn [g_tab g_thr g_lock g_aw fst snd]; auto.
      + cbn [hold app]. apply (arep_perm _ _ _ _ _ _ _ (u :: l0 ++ rest)); [|exact R2].
        rewrite P1. reflexivity.
      + cbn [sstep].
        destruct (agrees_get _ _ _ _ _ Ha G) as (t1 & t2 & s1 & s2 & sb & Et & Es & L1 & L2 & Hb & A1 & A2).
        assert (Gs : get h s = Some sb) by (rewrite Es, <- L2; apply get_mid). rewrite Gs.
        destruct Hb as (B1 & B2 & B3). rewrite <- B2.
        replace ((0 <=? off) && (off + Z.of_nat (length cl) <=? u_len u)) with true by lia.
        rewrite Et, Es, <- L2, set_nth_split.
        assert (Hl0 : forall v, In v (live (t1 ++ t2)) -> In v l0).
        { intros v Hv. apply live_in in Hv. destruct Hv as [h' Hv].
          destruct (Nat.lt_ge_cases h' (length t1)) as [L|L].
          - apply (P3 h'); [lia|]. subst tab. revert Hv. unfold get. rewrite !nth_error_app1 by lia. auto.
          - apply (P3 (S h')); [lia|]. subst tab. revert Hv. unfold get. rewrite !nth_error_app2 by lia.
            replace (S h' - length t1)%nat with (S (h' - length t1)) by lia. auto. }
        assert (Hs' : same_on (live (t1 ++ t2)) (bw_mem w) m').
        { intros v x Hv Hx. apply (Hs v); [|exact Hx]. apply in_or_app. left. auto. }
        rewrite live_app in Hs'. apply same_on_app in Hs'. destruct Hs' as [Hs1 Hs2].
        apply Forall2_app; [apply (agrees_same (bw_mem w) _ _ _ (live t1)); auto; apply incl_refl|].
        constructor; [|apply (agrees_same (bw_mem w) _ _ _ (live t2)); auto; apply incl_refl].
        split; [exact B1|]. split; [reflexivity|]. cbn [s_at s_len al_set_mem bot base bw_mem].
        intros i c Hi. unfold m', write_cells.
        destruct (Z.leb_spec off i); destruct (Z.ltb_spec i (off + Z.of_nat (length cl))); cbn [andb].
        * replace ((u_ptr u + off <=? u_ptr u + i) && (u_ptr u + i <? u_ptr u + off + Z.of_nat (length cl))) with true by lia.
          replace (u_ptr u + i - (u_ptr u + off)) with (i - off) by lia. congruence.
        * replace ((u_ptr u + off <=? u_ptr u + i) && (u_ptr u + i <? u_ptr u + off + Z.of_nat (length cl))) with false by lia.
          intros Hc; apply B3; [lia|exact Hc].
        * replace ((u_ptr u + off <=? u_ptr u + i) && (u_ptr u + i <? u_ptr u + off + Z.of_nat (length cl))) with false by lia.
          intros Hc; apply B3; [lia|exact Hc].
        * lia.
      + apply (lock_same _ _ _ Idle); auto.
      + intros h' u' _ G'. split; [exact G'|]. intros Hbusy.
        assert (h' <> h) by congruence.
        intros z x [<-|[]] Hx. apply (Hs u'); [|exact Hx]. apply in_or_app. left. apply (P3 h'); auto.
      + apply same_on_app in Hs. apply Hs.
    - destruct (get h tab) as [u|] eqn:G; [|exact Hstay].
      destruct (negb (busy h thr) && fitsb l u) eqn:E; [|exact Hstay].
      apply andb_true_iff in E. destruct E as [E1 E2].
      apply Hbegin; [split; [exact G|apply fitsb_spec; exact E2]|].
      cbn. intros h' E; inversion E; subst h'. apply negb_true_iff in E1. exact E1.
    - destruct (get h tab) as [u|] eqn:G; [|exact Hstay].
      destruct (negb (busy h thr) && fitsb old u && req_okb (su_smax su) new) eqn:E; [|exact Hstay].
      apply andb_true_iff in E. destruct E as [E E3]. apply andb_true_iff in E. destruct E as [E1 E2].
      apply Hbegin; [split; [exact G|split; [apply fitsb_spec; exact E2|exact E3]]|].
      cbn. intros h' E; inversion E; subst h'. apply negb_true_iff in E1. exact E1.
    - destruct keep; [|exact Hstay]. destruct (forallb away thr) eqn:Ei; [|exact Hstay].
      apply (reset_step cs); auto.
  Qed.

  Lemma xcstep_ok g s c : xinv g s -> wp (cstep su c) g (post s).
  Proof.
    intros (cs & C). destruct c as [t o|t sp|t v|keep]; [| | |apply (exclusive_step cs); exact C];
      unfold cstep; apply wp_get_g.
    - destruct (nth_error (g_thr g) t) as [p|] eqn:Hp; [|apply wp_ret; exists cs; exact C].
      destruct p; try (apply wp_ret; exists cs; exact C). apply (begin_step cs); auto.
    - destruct (nth_error (g_thr g) t) as [p|] eqn:Hp; [|apply wp_ret; exists cs; exact C].
      apply (go_step cs); auto.
    - destruct (nth_error (g_thr g) t) as [p|] eqn:Hp; [|apply wp_ret; exists cs; exact C].
      apply (stale_step cs); auto.
  Qed.

  Lemma sevs_app es1 es2 s : sevs (es1 ++ es2) s = sevs es2 (sevs es1 s).
  Proof. apply fold_left_app. Qed.

  Lemma xcrun_ok sched : forall g s, xinv g s -> wp (crun su sched) g (post s).
  Proof.
    induction sched as [|c sched IH]; intros g s Hi; cbn [crun].
    - apply wp_ret. exact Hi.
    - apply wp_bind. eapply wp_mono; [apply (xcstep_ok g s c Hi)|].
      intros e g1 H1. apply wp_bind. eapply wp_mono; [apply (IH g1 _ H1)|].
      intros es g2 H2. apply wp_ret. rewrite sevs_app. exact H2.
  Qed.

End Facts.

(** ** An arena with the underlying allocator to itself *)
Section Sole.
  Variable su : setup.
  Hypothesis Hok : setup_ok su.

  Lemma cstep_ok g s c : cinv su g s -> wp (cstep su c) g (fun es g' => cinv su g' (sevs es s)).
  Proof.
    intros H. apply (sole_inv su (bw_mem bworld0)) in H. eapply wp_mono; [apply (xcstep_ok su Hok true [] (bw_mem bworld0) g s c H)|].
    intros es g' H'. apply (sole_inv su (bw_mem bworld0)). exact H'.
  Qed.
  Lemma crun_ok sched g s : cinv su g s -> wp (crun su sched) g (fun es g' => cinv su g' (sevs es s)).
  Proof.
    intros H. apply (sole_inv su (bw_mem bworld0)) in H. eapply wp_mono; [apply (xcrun_ok su Hok true [] (bw_mem bworld0) sched g s H)|].
    intros es g' H'. apply (sole_inv su (bw_mem bworld0)). exact H'.
  Qed.

  Lemma header_of cs ar w us r :
    arep (su_amax su) (bot su) (base_own (su_amax su) (su_bmax su)) [] cs ar w us -> (exists e, root_is cs r e) ->
    exists c cs0, cs = c :: cs0 /\ r = c_ptr c /\
      load (bw_mem w) (r + CURSOR) 8 = Some (c_cur c) /\
      load (bw_mem w) (r + END) 8 = Some (c_end c) /\
      0 < c_ptr c /\ c_base c <= c_cur c <= c_end c /\ c_end c <= su_amax su.
  Proof. apply (xheader_of su Hok []). Qed.

  Lemma cstart_inv n : cinv su (cstart su n) [].
  Proof.
    destruct (start_inv su Hok) as [(cs & R & Hh & Hm) _]. exists cs.
    unfold ConcFacts.cinvx, cstart. cbn [g_tab g_thr g_lock g_aw fst snd live app].
    assert (Hn : forall t p, nth_error (repeat Idle n) t = Some p -> p = Idle).
    { intros t p H. apply nth_error_In in H. apply repeat_spec in H. exact H. }
    assert (Hf : flat_map hold (repeat Idle n) = []).
    { clear. induction n; cbn; auto. }
    rewrite Hf. split; [exact R|]. split; [exact Hh|]. split; [exact Hm|]. split; [constructor|].
    split; [|split].
    - split; [|split]; cbn.
      + intros t. split; [tauto|]. intros (p & H & E). rewrite (Hn t p H) in E. discriminate.
      + intros t. split; [discriminate|]. intros (p & H & E). rewrite (Hn t p H) in E. discriminate.
      + reflexivity.
    - intros t p H. rewrite (Hn t p H). exact I.
    - intros t1 t2 p1 p2 h H1 H2 E. rewrite (Hn t1 p1 H1) in E. discriminate.
  Qed.

  Lemma crun_total n sched : exists es g,
    crun su sched (cstart su n) = ORet es g /\ cinv su g (sevs es []).
  Proof.
    pose proof (crun_ok sched _ _ (cstart_inv n)) as H. apply wp_inv in H.
    destruct H as (es & g & E & H). eauto.
  Qed.
End Sole.
