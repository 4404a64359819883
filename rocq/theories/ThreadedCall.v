(** One call among other threads, from its beginning to its return. *)
From Coq Require Import Permutation.
From Verif Require Import Base BaseFacts Alloc AllocFacts Arena ArenaFacts ArenaInv ArenaOps
  BlinkAlloc BlinkFacts History HistoryFacts Setup SetupFacts SetupOps Conc ConcFacts ConcSteps ConcProps
  ConcShape ConcKeep ConcDrain BlinkEnv Threaded ThreadedFacts ThreadedExact.

Lemma copying_bytes p : copying p = pc_bytes p.
Proof. destruct p; reflexivity. Qed.

(** A block that is gone does not come back. *)
Lemma sstep_gone h o r s : (h < length s)%nat -> get h s = None ->
  (h < length (sstep o r s))%nat /\ get h (sstep o r s) = None.
Proof.
  intros L G.
  assert (Hs : forall k x y, get k s = Some x -> (h < length (set_nth k y s))%nat /\ get h (set_nth k y s) = None).
  { intros k x y Gk. rewrite set_nth_length. split; [exact L|]. rewrite get_set_other by congruence. exact G. }
  destruct o, r; cbn [sstep]; try (split; assumption);
    try (destruct (get h0 s) as [b|] eqn:G0; [|split; assumption]);
    try (match goal with |- context [if ?c then _ else _] => destruct c end);
    try (split; assumption); try (eapply Hs; exact G0).
  all: try (rewrite map_length, get_nones; split; [exact L|reflexivity]).
  all: rewrite app_length, get_app_len by exact L; split; [lia|exact G].
Qed.
Lemma sevs_gone h es : forall s, (h < length s)%nat -> get h s = None -> (h < length (sevs es s))%nat /\ get h (sevs es s) = None.
Proof.
  induction es as [|e es IH]; intros s L G; [split; assumption|]. cbn [sevs fold_left].
  assert (H : (h < length (sev s e))%nat /\ get h (sev s e) = None).
  { destruct e; cbn [sev]; try (split; assumption); apply sstep_gone; assumption. }
  destruct H as [L' G']. apply IH; assumption.
Qed.

Section Call.
  Variable su : setup.
  Hypothesis Hok : setup_ok su.
  Variable t : nat.
  Notation fine := (fine su).
  Notation guard := (guard t).
  Notation undisturbed := (undisturbed su t).

  (** A block that the step does not touch, in terms of the buffers. *)
  Lemma same_block mine g log es g' h u c : fine mine g log -> cstep su c g = ORet es g' ->
    get h (g_tab g) = Some u -> get h (g_tab g') = Some u ->
    get h (sevs es (snapshot (cmem g) (g_tab g))) = get h (snapshot (cmem g) (g_tab g)) ->
    same_on [u] (cmem g) (cmem g').
  Proof.
    intros (s & Hi & _) E G G2 Gs2. apply cinv_snapshot in Hi.
    pose proof (cstep_ok su Hok g _ c Hi) as H. unfold wp in H. rewrite E in H.
    destruct H as (cs & _ & _ & _ & Ha & _). intros v x [<-|[]] Hx.
    rewrite snapshot_get, G in Gs2. cbn [option_map] in Gs2.
    destruct (get_both _ _ _ _ _ _ Ha G2 Gs2) as (_ & _ & Hb). unfold in_u in Hx.
    specialize (Hb (x - u_ptr u) (cmem g x)). cbn [s_len s_at snap] in Hb.
    replace (u_ptr u + (x - u_ptr u)) with x in Hb by lia. apply Hb; [lia|reflexivity].
  Qed.

  (** A block that has been resized. *)
  Lemma resized_block mine g log es g' h u c pre old new b : fine mine g log -> cstep su c g = ORet es g' ->
    get h (g_tab g) = Some u -> get h (g_tab g') = Some (mkU (b_ptr b) (b_len b) new) ->
    es = pre ++ [Lin t (OpResize h old new) (Some b)] -> quietly t pre ->
    forall i, 0 <= i < Z.min (l_size old) (l_size new) -> i < b_len b -> cmem g' (b_ptr b + i) = cmem g (u_ptr u + i).
  Proof.
    intros (s & Hi & _) E G G2 -> Q i Hi1 Hi2. apply cinv_snapshot in Hi.
    pose proof (cstep_ok su Hok g _ c Hi) as H. unfold wp in H. rewrite E in H.
    destruct H as (cs & _ & _ & _ & Ha & _).
    assert (Gs : get h (snapshot (cmem g) (g_tab g)) = Some (snap (cmem g) u)) by (rewrite snapshot_get, G; reflexivity).
    assert (Ep : sevs pre (snapshot (cmem g) (g_tab g)) = snapshot (cmem g) (g_tab g)) by (destruct Q as [->| ->]; reflexivity).
    rewrite sevs_app, Ep in Ha. cbn [sevs fold_left sev sstep option_map] in Ha. rewrite Gs in Ha.
    match type of Ha with agrees _ _ (set_nth h (Some ?x) ?s) =>
      assert (Gx : get h (set_nth h (Some x) s) = Some x) by (rewrite get_set_nth by (apply (get_len _ _ _ Gs)); rewrite Nat.eqb_refl; reflexivity) end.
    destruct (get_both _ _ _ _ _ _ Ha G2 Gx) as (_ & _ & Hb). cbn [s_len s_at snap u_ptr u_len] in Hb.
    apply (Hb i); [lia|]. destruct (Z.ltb_spec i (Z.min (l_size old) (l_size new))); [reflexivity|lia].
  Qed.

  Variable mine : list nat.
  Variable j : job.
  Variable g0 : gst.                     (* when the call begins *)
  Hypothesis Hjh : forall h, job_handle j = Some h -> In h mine.
  Hypothesis Hju : match j with JAlloc _ => True | JResize h u _ _ | JDealloc h u _ => get h (g_tab g0) = Some u end.
  Hypothesis Hjf : match j with JResize _ u old _ => fits old u | JDealloc _ u l => fits l u | JAlloc _ => True end.
  Hypothesis Hjs : 0 <= l_size (job_layout j) <= USIZE_MAX.
  Hypothesis Hmine : forall h, In h mine -> exists u, get h (g_tab g0) = Some u.

  Definition kept (X : option nat) (g : gst) : Prop :=
    forall h u, In h mine -> X <> Some h -> get h (g_tab g0) = Some u ->
      get h (g_tab g) = Some u /\ same_on [u] (cmem g0) (cmem g).

  (** The call has taken effect with result [r]; [hd] is the handle of the block. *)
  Definition done (hd : option nat) (r : option block) (g : gst) : Prop :=
    kept (job_handle j) g /\ exact_job j r /\
    match j, r with
    | JAlloc l, Some b => exists n, hd = Some n /\ ~ In n mine /\ get n (g_tab g) = Some (mkU (b_ptr b) (b_len b) l)
    | JAlloc l, None => hd = None
    | JResize h u old new, Some b => hd = Some h /\ get h (g_tab g) = Some (mkU (b_ptr b) (b_len b) new) /\
        forall i, 0 <= i < Z.min (l_size old) (l_size new) -> i < b_len b -> cmem g (b_ptr b + i) = cmem g0 (u_ptr u + i)
    | JResize h u old new, None => hd = Some h /\ get h (g_tab g) = Some u /\ same_on [u] (cmem g0) (cmem g)
    | JDealloc h u l, _ => hd = Some h
    end.

  (** The history says that the block is gone. *)
  Definition gone (log : list event) : Prop :=
    match j with JDealloc h _ _ => (h < length (sevs log []))%nat /\ get h (sevs log []) = None | _ => True end.

  (** Somewhere in the call; [r] is the result as far as it is known. *)
  Definition mid (r : option (option block)) (g : gst) (log : list event) : Prop :=
    fine mine g log /\ exists p, nth_error (g_thr g) t = Some p /\ guard (ours mine p) g /\
      (forall h, ours mine p h -> (h < length (g_tab g))%nat) /\
      ((pc_job p = Some j /\ pc_handle p = job_handle j /\ exact_pc p /\ r = None /\ kept None g) \/
       (exists wr hd b, p = Unlock wr None hd /\ r = Some b /\ done hd b g /\ gone log)).

  (** Back from the call. *)
  Definition final (hd : option nat) (r : option block) (g : gst) (log : list event) : Prop :=
    fine mine g log /\ nth_error (g_thr g) t = Some Idle /\ guard (fun h => In h mine) g /\
    (forall t' p h, t' <> t -> nth_error (g_thr g) t' = Some p -> pc_handle p = Some h -> hd <> Some h) /\
    (forall h, In h mine -> (h < length (g_tab g))%nat) /\ done hd r g /\ gone log.

  Lemma gone_more log es : gone log -> gone (log ++ es).
  Proof.
    unfold gone. destruct j as [l|h u old new|h u l]; auto. intros [L G]. rewrite sevs_app. apply sevs_gone; assumption.
  Qed.

  (** At the moment when it takes effect. *)
  Lemma gone_now g log r : fine mine g log -> kept None g -> gone (log ++ [Lin t (job_op j) r]).
  Proof.
    intros Hf K. unfold gone. destruct j as [l|h u old new|h u l]; auto.
    destruct (K h u (Hjh h eq_refl) ltac:(discriminate) Hju) as [G _].
    destruct Hf as (s & (cs & _ & _ & _ & Ha & _) & Hal & _). rewrite sevs_app. cbn [sevs fold_left sev job_op sstep].
    destruct (agrees_get _ _ _ _ _ Ha G) as (t1 & t2 & s1 & s2 & b & _ & Es & _ & L2 & (Hb1 & Hb2 & _) & _).
    assert (Gs : get h s = Some b) by (rewrite Es; unfold get; rewrite nth_error_app2, L2, Nat.sub_diag by lia; reflexivity).
    destruct Hal as [Hl Hal]. destruct (Hal h) as [F _]. rewrite Gs in F. cbn [form option_map] in F.
    destruct (get h (sevs log [])) as [b'|] eqn:G'; [|discriminate F]. injection F as F1 F2.
    assert (Hfit : s_fits l b' = true).
    { destruct Hjf as (X1 & X2). unfold s_fits. rewrite <- F1, <- F2, <- Hb1, <- Hb2. rewrite X1, Z.eqb_refl. cbn. apply andb_true_iff. split; apply Z.leb_le; lia. }
    rewrite Hfit. pose proof (get_len _ _ _ G') as L'. split; [rewrite set_nth_length; exact L'|].
    rewrite get_set_nth by exact L'. rewrite Nat.eqb_refl. reflexivity.
  Qed.

  Lemma undisturbed_kept p X g log es g' : undisturbed mine p g log es g' -> kept X g -> kept X g'.
  Proof.
    intros (_ & _ & _ & _ & U) H h u Hh N G. destruct (H h u Hh N G) as [G1 S1].
    destruct (U h u (or_introl Hh) G1) as [G2 S2]. split; [exact G2|]. eapply same_on_trans; eassumption.
  Qed.

  Lemma undisturbed_mid r p g log es g' : nth_error (g_thr g) t = Some p -> undisturbed mine p g log es g' ->
    mid r g log -> mid r g' (log ++ es).
  Proof.
    intros Hp U (Hf & p1 & Hp1 & Hg & Hl & H). rewrite Hp in Hp1. injection Hp1 as <-.
    pose proof U as (F & P & G & L & K). split; [exact F|]. exists p. split; [exact P|]. split; [exact G|].
    split; [intros h Hh; specialize (Hl h Hh); lia|].
    destruct H as [(H1 & H2 & H3 & H4 & H5)|(wr & hd & b & -> & Hr & D & Dg)].
    - left. split; [exact H1|]. split; [exact H2|]. split; [exact H3|]. split; [exact H4|]. eapply undisturbed_kept; eassumption.
    - right. exists wr, hd, b. split; [reflexivity|]. split; [exact Hr|]. split; [|apply gone_more; exact Dg]. destruct D as (D1 & D2 & D3).
      split; [eapply undisturbed_kept; eassumption|]. split; [exact D2|].
      destruct j as [l|h u old new|h u l]; [| |exact D3].
      + destruct b as [b|]; [|exact D3]. destruct D3 as (n & E & N & Gn). exists n. split; [exact E|]. split; [exact N|].
        apply (K n _ (or_intror E) Gn).
      + destruct b as [b|].
        * destruct D3 as (E & Gn & C). split; [exact E|].
          destruct (K h _ (or_intror E) Gn) as [Gn' S]. split; [exact Gn'|]. intros i Hi Hi2.
          rewrite (S _ (b_ptr b + i) (or_introl eq_refl)) by (unfold in_u; cbn; lia). apply C; assumption.
        * destruct D3 as (E & Gn & C). split; [exact E|].
          destruct (K h _ (or_intror E) Gn) as [Gn' S]. split; [exact Gn'|]. eapply same_on_trans; eassumption.
  Qed.

  Lemma quiet_kept X g log c es g' : fine mine g log -> cstep su c g = ORet es g' ->
    (forall h, In h mine -> X <> Some h -> filter (about h) es = []) -> kept None g -> kept X g'.
  Proof.
    intros Hf E Hq K h u Hh N G. destruct (K h u Hh ltac:(discriminate) G) as [G1 S1].
    destruct (quiet_block su Hok mine g log es g' h u c Hf E G1 (Hq h Hh N)) as [G2 S2].
    split; [exact G2|]. eapply same_on_trans; eassumption.
  Qed.

  (** A step of the thread itself, before the call has taken effect. *)
  Lemma own_shape g log p c es g' : mid None g log -> nth_error (g_thr g) t = Some p ->
    pc_job p = Some j -> pc_handle p = job_handle j -> exact_pc p -> kept None g ->
    cstep su c g = ORet es g' -> shape t p g es g' -> exact_step t es g' -> fine mine g' (log ++ es) ->
    mid (result t es None) g' (log ++ es).
  Proof.
    intros (Hf & p1 & Hp1 & Hg & Hl & _) Hp Ej Eh Ex K E Sh [X1 X2] Hf'. rewrite Hp in Hp1. injection Hp1 as <-.
    split; [exact Hf'|].
    assert (Hoth : forall p' t2, g_thr g' = set_nth t p' (g_thr g) -> t2 <> t -> nth_error (g_thr g') t2 = nth_error (g_thr g) t2).
    { intros p' t2 Et N. rewrite Et, nth_set_other by congruence. reflexivity. }
    destruct Sh as [p' Et Eb Q E1 E2 E3|j' r pre wr Et Eb Ej' Q Ee Eh'|wr h0 Eq _ _ _].
    - assert (Hp' : nth_error (g_thr g') t = Some p') by (rewrite Et; apply (nth_set_same _ _ _ _ Hp)).
      exists p'. split; [exact Hp'|].
      assert (Ho : forall h, ours mine p' h -> ours mine p h) by (intros h [H|H]; [left; exact H|right; congruence]).
      split; [intros t2 p2 h N H2 H3 H4; rewrite (Hoth p' t2 Et N) in H2; apply (Hg t2 p2 h N H2 H3 (Ho h H4))|].
      split; [intros h H; rewrite Eb; apply Hl, Ho, H|]. left. split; [congruence|]. split; [congruence|].
      split; [apply (X2 p' Hp')|]. split; [destruct Q as [->| ->]; reflexivity|].
      apply (quiet_kept None g log c es g' Hf E); [|exact K]. intros h _ _. destruct Q as [->| ->]; reflexivity.
    - assert (j' = j) by congruence. subst j'.
      set (p' := Unlock wr None (fin_handle j r (g_tab g))) in *.
      assert (Hp' : nth_error (g_thr g') t = Some p') by (rewrite Et; apply (nth_set_same _ _ _ _ Hp)).
      assert (Hr : result t es None = Some r).
      { rewrite Ee. unfold result. rewrite fold_left_app. cbn [fold_left]. rewrite Nat.eqb_refl. reflexivity. }
      assert (Hfin : forall h, fin_handle j r (g_tab g) = Some h -> job_handle j = Some h \/ h = length (g_tab g)).
      { intros h H. destruct j, r; cbn in H; inversion H; subst; cbn; auto. }
      exists p'. split; [exact Hp'|]. split; [|split].
      + intros t2 p2 h N H2 H3 H4. rewrite (Hoth p' t2 Et N) in H2. destruct H4 as [H4|H4].
        * apply (Hg t2 p2 h N H2 H3). left. exact H4.
        * cbn [p' pc_handle] in H4. destruct (Hfin h H4) as [H5| ->].
          -- apply (Hg t2 p2 h N H2 H3). right. congruence.
          -- destruct (fine_pc su mine g log t2 p2 Hf H2) as (cs & Hpc). pose proof (pc_handle_len su cs _ _ _ _ Hpc H3). lia.
      + intros h [H|H]; [|cbn [p' pc_handle] in H].
        * rewrite Eb. eapply Nat.lt_le_trans; [apply Hl; left; exact H|apply fin_tab_len].
        * destruct (Hfin h H) as [H5| ->].
          -- rewrite Eb. eapply Nat.lt_le_trans; [apply Hl; right; congruence|apply fin_tab_len].
          -- rewrite Eb. destruct j, r; cbn in H; try discriminate H; cbn [fin_tab]; rewrite ?app_length, ?set_nth_length; cbn;
               try lia; injection H as ->; specialize (Hl _ (or_introl (Hjh _ eq_refl))); lia.
      + right. exists wr, (fin_handle j r (g_tab g)), r. split; [reflexivity|]. split; [exact Hr|].
        assert (Hin : In (Lin t (job_op j) r) es) by (rewrite Ee; apply in_or_app; right; left; reflexivity).
        specialize (X1 _ _ Hin).
        assert (Ab : forall h, job_handle j <> Some h -> filter (about h) es = []).
        { intros h N. rewrite Ee, filter_app.
          assert (F : filter (about h) pre = []) by (destruct Q as [->| ->]; reflexivity). rewrite F. cbn [app filter].
          destruct (about h (Lin t (job_op j) r)) eqn:B; [|reflexivity]. exfalso. apply about_handle in B.
          destruct B as [B|[k B]]; [rewrite job_op_handle in B; congruence|destruct j; discriminate B]. }
        assert (Gn : gone (log ++ es)).
        { pose proof (gone_now g log r Hf K) as Gn. rewrite Ee. destruct Q as [->| ->]; [exact Gn|].
          revert Gn. unfold gone. rewrite !sevs_app. exact (fun x => x). }
        split; [|exact Gn]. split; [|split].
        * apply (quiet_kept (job_handle j) g log c es g' Hf E); [|exact K]. intros h _ N. apply Ab. exact N.
        * destruct j, r; cbn in *; auto.
        * destruct j as [l|h u old new|h u l]; [| |reflexivity].
          -- destruct r as [b|]; [|reflexivity]. cbn [fin_handle fin_tab] in *. exists (length (g_tab g)). split; [reflexivity|].
             split; [intros X; specialize (Hl _ (or_introl X)); lia|]. rewrite Eb, get_app, Nat.eqb_refl. reflexivity.
          -- destruct (K h u (Hjh h eq_refl) ltac:(discriminate) Hju) as [G1 S1]. destruct r as [b|]; cbn [fin_handle fin_tab job_handle] in *.
             ++ split; [reflexivity|].
                assert (G2 : get h (g_tab g') = Some (mkU (b_ptr b) (b_len b) new)).
                { rewrite Eb, get_set_nth by (apply (get_len _ _ _ G1)). rewrite Nat.eqb_refl. reflexivity. }
                split; [exact G2|]. intros i Hi Hi2.
                rewrite (resized_block mine g log es g' h u c pre old new b Hf E G1 G2 Ee Q i Hi Hi2).
                apply (S1 u); [left; reflexivity|]. destruct Hjf as (_ & Hfit). unfold in_u. lia.
             ++ split; [reflexivity|]. assert (G2 : get h (g_tab g') = Some u) by (rewrite Eb; exact G1).
                split; [exact G2|]. eapply same_on_trans; [exact S1|].
                apply (same_block mine g log es g' h u c Hf E G1 G2). rewrite Ee, sevs_app.
                destruct Q as [->| ->]; reflexivity.
    - rewrite Eq in Ej. discriminate Ej.
  Qed.

  Lemma own_step m r g log : mid r g log ->
    wp (cstep su (own_choice t m)) g (fun es g' =>
      match m, nth_error (g_thr g) t with
      | Fresh _, Some (Unlock _ None hd) => exists b, result t es r = Some b /\ final hd b g' (log ++ es)
      | _, _ => mid (result t es r) g' (log ++ es)
      end).
  Proof.
    intros Hm. pose proof Hm as (Hf & p & Hp & Hg & Hl & H).
    pose proof (fine_step su Hok mine (own_choice t m) g log Hf) as W. unfold wp in *. rewrite Hp.
    destruct (cstep su (own_choice t m) g) as [es g'| | |] eqn:E; try contradiction.
    destruct H as [(H1 & H2 & H3 & -> & H5)|(wr & hd & b & -> & -> & D & Dg)].
    - assert (Hns : forall wr hd, p <> Unlock wr None hd) by (intros wr hd ->; discriminate H1).
      assert (Hend : mid (result t es None) g' (log ++ es)).
      { destruct (fine_pc su mine g log t p Hf Hp) as (cs & Hpc).
        pose proof E as E'. unfold cstep, own_choice in E'. destruct m as [sp|v]; unfold bind at 1, get_g in E'; rewrite Hp in E'.
        - apply (own_shape g log p (own_choice t (Fresh sp)) es g' Hm Hp H1 H2 H3 H5 E); [|  |exact W].
          + apply (go_shape su t p sp g Hp (pc_unlock su _ _ _ _ Hpc) es g' E').
          + apply (go_exact su t p sp g Hp H3); [|exact E']. intros j'.
            destruct (Z.le_gt_cases 0 (l_size (job_layout j'))) as [L1|L1]; [destruct (Z.le_gt_cases (l_size (job_layout j')) USIZE_MAX) as [L2|L2]|].
            * left. split; assumption.
            * right. intros X. rewrite (pc_job_phase _ _ H1) in X. assert (l_size (job_layout j') = l_size (job_layout j)); [|lia].
              destruct j, j'; cbn in X; try discriminate X; inversion X; reflexivity.
            * right. intros X. rewrite (pc_job_phase _ _ H1) in X. assert (l_size (job_layout j') = l_size (job_layout j)); [|lia].
              destruct j, j'; cbn in X; try discriminate X; inversion X; reflexivity.
        - apply (own_shape g log p (own_choice t (Old v)) es g' Hm Hp H1 H2 H3 H5 E); [|  |exact W].
          + apply (stale_shape_ok su t p v g Hp es g' E').
          + apply (stale_exact su t p v g Hp H3 es g' E'). }
      destruct m; [|exact Hend]. destruct p; try exact Hend. destruct next; [exact Hend|]. destruct (Hns wr h eq_refl).
    - unfold cstep, own_choice in E. destruct m as [sp|v]; unfold bind at 1, get_g in E; rewrite Hp in E; cbn in E; injection E as <- <-.
      + exists b. split; [reflexivity|].
        assert (Ho : forall t2 p2, t2 <> t -> nth_error (set_nth t Idle (g_thr g)) t2 = Some p2 -> nth_error (g_thr g) t2 = Some p2).
        { intros t2 p2 N. rewrite nth_set_other by congruence. auto. }
        split; [exact W|]. cbn [g_thr g_tab]. split; [apply (nth_set_same _ _ _ _ Hp)|]. split; [|split; [|split]].
        * intros t2 p2 h N H2 H3 H4. apply (Hg t2 p2 h N (Ho t2 p2 N H2) H3). left. exact H4.
        * intros t2 p2 h N H2 H3 H4. apply (Hg t2 p2 h N (Ho t2 p2 N H2) H3). right. exact H4.
        * intros h H. apply Hl. left. exact H.
        * split; [exact D|]. apply gone_more. exact Dg.
      + split; [exact W|]. exists (Unlock wr None hd). split; [exact Hp|]. split; [exact Hg|]. split; [exact Hl|].
        right. exists wr, hd, b. split; [reflexivity|]. split; [reflexivity|]. split; [exact D|]. apply gone_more. exact Dg.
  Qed.

  Lemma mid_others r g log cs : mid r g log -> forallb (allowed t mine) cs = true ->
    wp (crun su cs) g (fun es g' => mid r g' (log ++ es) /\ nth_error (g_thr g') t = nth_error (g_thr g) t).
  Proof.
    intros Hm Ha. pose proof Hm as (Hf & p & Hp & Hg & Hl & _).
    eapply wp_mono; [apply (other_crun su Hok t mine p cs g log Hf Hp Hg Hl Ha)|].
    intros es g' U. split; [apply (undisturbed_mid r p g log es g' Hp U Hm)|]. destruct U as (_ & P & _). congruence.
  Qed.

  Lemma filter_all {T} (f : T -> bool) l : forallb f (filter f l) = true.
  Proof. apply forallb_forall. intros x Hx. apply filter_In in Hx. apply Hx. Qed.

  Lemma drive_ok turns : forall r g log, mid r g log ->
    wp (drive su t mine turns r) g (fun d g' =>
      match d with
      | (es, _, r', None) => mid r' g' (log ++ es)
      | (es, _, r', Some hd) => exists b, r' = Some b /\ final hd b g' (log ++ es)
      end).
  Proof.
    induction turns as [|tn turns IH]; intros r g log Hm; cbn [drive].
    - apply wp_ret. rewrite app_nil_r. exact Hm.
    - apply wp_bind. eapply wp_mono; [apply (mid_others r g log _ Hm (filter_all _ _))|].
      intros es1 g1 [Hm1 _]. apply wp_get_g. apply wp_bind. eapply wp_mono; [apply (own_step (tn_step tn) r g1 _ Hm1)|].
      intros es2 g2 H2.
      assert (Hgo : mid (result t es2 r) g2 ((log ++ es1) ++ es2) ->
        wp (d <- drive su t mine turns (result t es2 r) ;;
            match d with (es3, todo, r', h) => ret (es1 ++ es2 ++ es3, todo, r', h) end) g2
          (fun d g' => match d with (es, _, r', None) => mid r' g' (log ++ es) | (es, _, r', Some hd) => exists b, r' = Some b /\ final hd b g' (log ++ es) end)).
      { intros Hm2. apply wp_bind. eapply wp_mono; [apply (IH _ g2 _ Hm2)|]. intros [[[es3 todo] r'] hd] g3 H3. apply wp_ret.
        rewrite <- !app_assoc in H3. exact H3. }
      destruct (tn_step tn); [|apply Hgo; exact H2].
      destruct (nth_error (g_thr g1) t) as [[]|]; try (apply Hgo; exact H2). destruct next; [apply Hgo; exact H2|].
      apply wp_ret. destruct H2 as (b & Hb & F). exists b. split; [exact Hb|]. rewrite app_assoc. exact F.
  Qed.

  (** ** Getting the lock *)

  Lemma mid_cinv r g log : mid r g log -> exists s, cinv su g s.
  Proof. intros ((s & H & _) & _). exists s. exact H. Qed.

  Notation m0 := (bw_mem bworld0).

  (** Somebody else goes on alone. *)
  Lemma other_alone r g log t' p : mid r g log -> t' <> t -> nth_error (g_thr g) t' = Some p ->
    lk_writer (g_lock g) = None \/ lk_writer (g_lock g) = Some t' ->
    wp (crun su (repeat (Go t' false) (patience (Some p)))) g (fun es g' =>
      mid r g' (log ++ es) /\ exists p', g_thr g' = set_nth t' p' (g_thr g) /\ (p' = Idle \/ waits t' g p')).
  Proof.
    intros Hm N Hp Hw.
    assert (Ha : forallb (allowed t mine) (repeat (Go t' false) (patience (Some p))) = true).
    { apply forallb_forall. intros c Hc. apply repeat_spec in Hc. subst c. cbn. apply negb_true_iff, Nat.eqb_neq. exact N. }
    pose proof (mid_others r g log _ Hm Ha) as W. unfold wp in *.
    destruct (mid_cinv _ _ _ Hm) as (s & Hi). apply (sole_inv su m0) in Hi.
    destruct (solo su Hok true [] m0 (patience (Some p)) g s t' p Hi Hp Hw) as (es & g' & p' & E & Hp' & Hst).
    { unfold patience. rewrite copying_bytes. apply mu_bound. }
    rewrite E in *. split; [apply W|]. destruct (alone_thr su t' _ _ _ _ _ Hp E) as (p1 & Et).
    exists p'. split; [|exact Hst]. assert (p1 = p'); [|congruence]. rewrite Et, (nth_set_same _ _ _ _ Hp) in Hp'. congruence.
  Qed.

  Definition free_for (g : gst) : Prop :=
    (lk_writer (g_lock g) = None \/ lk_writer (g_lock g) = Some t) /\ forall t', In t' (lk_readers (g_lock g)) -> t' = t.

  Lemma cinv_lock g s : cinv su g s -> lock_ok (g_lock g) (g_thr g).
  Proof. intros (cs & _ & _ & _ & _ & H & _). exact H. Qed.

  Lemma clear_readers ts : forall r g log, mid r g log -> ~ In t ts -> lk_writer (g_lock g) = None ->
    (forall t', In t' (lk_readers (g_lock g)) -> t' = t \/ In t' ts) ->
    wp (clear su ts) g (fun es g' => mid r g' (log ++ es) /\ free_for g').
  Proof.
    induction ts as [|t' ts IH]; intros r g log Hm Nt Hw Hr; cbn [clear].
    - apply wp_ret. rewrite app_nil_r. split; [exact Hm|]. split; [left; exact Hw|]. intros t' H. destruct (Hr t' H) as [X|[]]; exact X.
    - apply wp_get_g. assert (N : t' <> t) by (intros ->; apply Nt; left; reflexivity).
      assert (Nt' : ~ In t ts) by (intros X; apply Nt; right; exact X).
      destruct (nth_error (g_thr g) t') as [p|] eqn:Hp.
      + apply wp_bind. eapply wp_mono; [apply (other_alone r g log t' p Hm N Hp (or_introl Hw))|].
        intros es1 g1 (Hm1 & p' & Et & Hst).
        destruct (mid_cinv _ _ _ Hm) as (s & Hi). destruct (mid_cinv _ _ _ Hm1) as (s1 & Hi1).
        destruct (cinv_lock _ _ Hi) as (K1 & K2 & K3). destruct (cinv_lock _ _ Hi1) as (J1 & J2 & J3).
        assert (Hrw : reading p' = false /\ writing p' = false) by (destruct Hst as [->|(j' & -> & _)]; auto). destruct Hrw as [Rp Wp].
        assert (Hw1 : lk_writer (g_lock g1) = None).
        { destruct (lk_writer (g_lock g1)) as [t2|] eqn:Ew; [|reflexivity]. exfalso.
          destruct (proj1 (J2 t2) eq_refl) as (q & Hq & Wq). rewrite Et in Hq. destruct (Nat.eq_dec t' t2) as [<-|N2].
          - rewrite (nth_set_same _ _ _ _ Hp) in Hq. congruence.
          - rewrite nth_set_other in Hq by exact N2. assert (X : lk_writer (g_lock g) = Some t2) by (apply K2; eauto). congruence. }
        apply wp_bind. eapply wp_mono; [apply (IH r g1 _ Hm1 Nt' Hw1)|].
        * intros t2 H2. apply J1 in H2. destruct H2 as (q & Hq & Rq). rewrite Et in Hq. destruct (Nat.eq_dec t' t2) as [<-|N2].
          -- rewrite (nth_set_same _ _ _ _ Hp) in Hq. congruence.
          -- rewrite nth_set_other in Hq by exact N2. assert (X : In t2 (lk_readers (g_lock g))) by (apply K1; eauto).
             destruct (Hr t2 X) as [Y|[Y|Y]]; [left; exact Y|contradiction|right; exact Y].
        * intros es2 g2 [Hm2 Fr]. apply wp_ret. split; [rewrite app_assoc; exact Hm2|exact Fr].
      + cbn [patience repeat crun]. apply wp_bind, wp_ret. apply wp_bind.
        eapply wp_mono; [apply (IH r g log Hm Nt' Hw)|].
        * intros t2 H2. destruct (Hr t2 H2) as [Y|[Y|Y]]; [left; exact Y| |right; exact Y]. exfalso. subst t2.
          destruct (mid_cinv _ _ _ Hm) as (s & Hi). destruct (cinv_lock _ _ Hi) as (K1 & _). apply K1 in H2. destruct H2 as (q & Hq & _). congruence.
        * intros es2 g2 [Hm2 Fr]. apply wp_ret. split; [exact Hm2|exact Fr].
  Qed.

  Lemma clear_ok r g log : mid r g log ->
    wp (clear su (holders t (g_lock g))) g (fun es g' => mid r g' (log ++ es) /\ free_for g').
  Proof.
    intros Hm. destruct (mid_cinv _ _ _ Hm) as (s & Hi). destruct (cinv_lock _ _ Hi) as (K1 & K2 & K3).
    unfold holders. destruct (lk_writer (g_lock g)) as [t'|] eqn:Ew.
    - cbn [filter]. destruct (Nat.eqb_spec t' t) as [->|N]; cbn [negb].
      + cbn [clear]. apply wp_ret. rewrite app_nil_r. split; [exact Hm|]. split; [right; exact Ew|].
        intros t2 H2. rewrite K3 in H2 by congruence. destruct H2.
      + cbn [clear]. apply wp_get_g. destruct (proj1 (K2 t') eq_refl) as (p & Hp & Wp). rewrite Hp.
        apply wp_bind. eapply wp_mono; [apply (other_alone r g log t' p Hm N Hp (or_intror Ew))|].
        intros es1 g1 (Hm1 & p' & Et & Hst). apply wp_bind, wp_ret, wp_ret. rewrite app_nil_r. split; [exact Hm1|].
        assert (p' = Idle).
        { destruct Hst as [->|(j' & _ & t2 & _ & Hr)]; [reflexivity|]. rewrite K3 in Hr by congruence. destruct Hr. }
        subst p'. destruct (mid_cinv _ _ _ Hm1) as (s1 & Hi1). destruct (cinv_lock _ _ Hi1) as (J1 & J2 & J3). split.
        * left. destruct (lk_writer (g_lock g1)) as [t2|] eqn:Ew1; [|reflexivity]. exfalso.
          destruct (proj1 (J2 t2) eq_refl) as (q & Hq & Wq). rewrite Et in Hq. destruct (Nat.eq_dec t' t2) as [<-|N2].
          -- rewrite (nth_set_same _ _ _ _ Hp) in Hq. injection Hq as <-. discriminate Wq.
          -- rewrite nth_set_other in Hq by exact N2. assert (X : Some t' = Some t2) by (apply K2; eauto). congruence.
        * intros t2 H2. exfalso. apply J1 in H2. destruct H2 as (q & Hq & Rq). rewrite Et in Hq. destruct (Nat.eq_dec t' t2) as [<-|N2].
          -- rewrite (nth_set_same _ _ _ _ Hp) in Hq. injection Hq as <-. discriminate Rq.
          -- rewrite nth_set_other in Hq by exact N2. assert (X : In t2 (lk_readers (g_lock g))) by (apply K1; eauto).
             rewrite K3 in X by congruence. destruct X.
    - apply (clear_readers _ r g log Hm).
      + intros X. apply filter_In in X. destruct X as [_ X]. rewrite Nat.eqb_refl in X. discriminate X.
      + exact Ew.
      + intros t2 H2. destruct (Nat.eq_dec t2 t) as [->|N]; [left; reflexivity|right]. apply filter_In. split; [exact H2|].
        apply negb_true_iff, Nat.eqb_neq. exact N.
  Qed.

  Lemma drive_alone k : forall r g d g', drive su t mine (repeat (mkTurn [] (Fresh false)) k) r g = ORet d g' ->
    snd d = None -> crun su (repeat (Go t false) k) g = ORet (fst (fst (fst d))) g'.
  Proof.
    induction k as [|k IH]; intros r g d g' E H; cbn [repeat drive crun tn_others tn_step filter own_choice] in *.
    - injection E as <- <-. reflexivity.
    - unfold bind in *. cbn [ret] in *. unfold get_g in E. destruct (cstep su (Go t false) g) as [es g1| | |]; try discriminate E.
      assert (Hgo : match drive su t mine (repeat (mkTurn [] (Fresh false)) k) (result t es r) g1 with
                    | ORet b w' => (let '(es3, todo, r', h) := b in ret ([] ++ es ++ es3, todo, r', h)) w'
                    | OPanic w' => OPanic w' | OAbort => OAbort | OUB => OUB end = ORet d g' ->
        match crun su (repeat (Go t false) k) g1 with
        | ORet b w' => ret (es ++ b) w' | OPanic w' => OPanic w' | OAbort => OAbort | OUB => OUB end = ORet (fst (fst (fst d))) g').
      { intros E'. destruct (drive su t mine _ (result t es r) g1) as [[[[es3 todo] r'] hd] g2| | |] eqn:Ed; try discriminate E'.
        injection E' as <- <-. cbn in H. subst hd. rewrite (IH _ _ _ _ Ed eq_refl). reflexivity. }
      destruct (nth_error (g_thr g) t) as [[]|]; try (apply Hgo; exact E). destruct next; [apply Hgo; exact E|].
      injection E as <- <-. discriminate H.
  Qed.

  (** With the lock free, the call returns. *)
  Lemma drive_returns r g log : mid r g log -> free_for g ->
    wp (drive su t mine (repeat (mkTurn [] (Fresh false)) (patience (nth_error (g_thr g) t))) r) g (fun d g' =>
      match d with
      | (es, _, r', Some hd) => exists b, r' = Some b /\ final hd b g' (log ++ es)
      | _ => False
      end).
  Proof.
    intros Hm [Fw Fr]. pose proof (drive_ok (repeat (mkTurn [] (Fresh false)) (patience (nth_error (g_thr g) t))) r g log Hm) as W.
    unfold wp in *. destruct (drive su t mine _ r g) as [[[[es todo] r'] hd] g'| | |] eqn:Ed; try contradiction.
    destruct hd as [hd|]; [exact W|]. exfalso.
    pose proof (drive_alone _ _ _ _ _ Ed eq_refl) as E. cbn [fst] in E.
    pose proof Hm as (_ & p & Hp & _). rewrite Hp in E.
    destruct (mid_cinv _ _ _ Hm) as (s & Hi). apply (sole_inv su m0) in Hi.
    destruct (solo su Hok true [] m0 (patience (Some p)) g s t p Hi Hp Fw) as (es' & g1 & p' & E' & Hp' & Hst).
    { unfold patience. rewrite copying_bytes. apply mu_bound. }
    rewrite E in E'. injection E' as <- <-. destruct W as (_ & p1 & Hp1 & _ & _ & H). rewrite Hp' in Hp1. injection Hp1 as <-.
    destruct Hst as [->|(j' & _ & t2 & N & Hr)].
    - destruct H as [(H & _)|(wr & hd & b & H & _)]; discriminate H.
    - apply N, Fr, Hr.
  Qed.

  (** The call, once begun. *)
  Lemma begun todo es0 log g : mid None g (log ++ es0) ->
    wp (d <- drive su t mine todo None ;;
        match d with
        | (es1, todo', r, Some h) => ret (es0 ++ es1, todo', h, match r with Some b => b | None => None end)
        | (es1, _, r, None) =>
            g <- get_g ;;
            es2 <- clear su (holders t (g_lock g)) ;;
            g' <- get_g ;;
            d' <- drive su t mine (repeat (mkTurn [] (Fresh false)) (patience (nth_error (g_thr g') t))) r ;;
            match d' with
            | (es3, _, r', Some h) => ret (es0 ++ es1 ++ es2 ++ es3, @nil turn, h, match r' with Some b => b | None => None end)
            | _ => ub
            end
        end) g (fun d g' => match d with (es, _, hd, b) => final hd b g' (log ++ es) end).
  Proof.
    intros Hm. apply wp_bind. eapply wp_mono; [apply (drive_ok todo None g _ Hm)|].
    intros [[[es1 todo'] r] [hd|]] g1 H1.
    - destruct H1 as (b & -> & F). apply wp_ret. rewrite app_assoc. exact F.
    - apply wp_get_g. apply wp_bind. eapply wp_mono; [apply (clear_ok r g1 _ H1)|]. intros es2 g2 [Hm2 Fr].
      apply wp_get_g. apply wp_bind. eapply wp_mono; [apply (drive_returns r g2 _ Hm2 Fr)|].
      intros [[[es3 todo3] r'] [hd|]] g3 H3; [|destruct H3]. destruct H3 as (b & -> & F). apply wp_ret.
      rewrite <- !app_assoc in F. exact F.
  Qed.
End Call.
