(** Collecting iterators: the invariant holds and no element is lost. *)
From Coq Require Import Permutation.
From Verif Require Import Base BaseFacts Alloc AllocFacts History HistoryFacts Blink BlinkInv BlinkReset BlinkOps.

(** ** What iterators do *)

Definition somes (l : list next_end) : list Z := flat_map (fun o => match o with NSome v => [v] | _ => [] end) l.
Definition no_panic (l : list next_end) : Prop := forall o, In o l -> o <> NPanic.

Fixpoint endedl (l : list next_end) : bool :=
  match l with [] => true | NSome _ :: _ => false | _ :: l' => endedl l' end.
Fixpoint fusedl (l : list next_end) : bool :=
  match l with [] => true | NNone :: l' => endedl l' | _ :: l' => fusedl l' end.

(** The iterator returned [None], or can return nothing else any more. *)
Definition stopped (used rest : list next_end) : Prop := rest = [] \/ exists l, used = l ++ [NNone].

Lemma somes_app l l' : somes (l ++ l') = somes l ++ somes l'.
Proof. apply flat_map_app. Qed.

Lemma ended_fused l : endedl l = true -> fusedl l = true.
Proof. induction l as [|[v| |] l IH]; cbn; auto; discriminate. Qed.
Lemma endedl_app l l' : endedl (l ++ l') = true -> endedl l' = true.
Proof. induction l as [|[v| |] l IH]; cbn; auto; discriminate. Qed.
Lemma fusedl_app l l' : fusedl (l ++ l') = true -> fusedl l' = true.
Proof.
  induction l as [|[v| |] l IH]; cbn; auto. intros H. apply ended_fused. eapply endedl_app; exact H.
Qed.
Lemma fused_stopped l l' : fusedl (l ++ l') = true -> stopped l l' -> endedl l' = true.
Proof.
  intros H [->|[k ->]]; [reflexivity|]. rewrite <- app_assoc in H. cbn in H. apply fusedl_app in H. exact H.
Qed.

Lemma no_panic_nil : no_panic [].
Proof. intros o []. Qed.
Lemma no_panic_app l l' : no_panic l -> no_panic l' -> no_panic (l ++ l').
Proof. intros H1 H2 o Ho. apply in_app_or in Ho. destruct Ho; auto. Qed.
Lemma no_panic_one o : o <> NPanic -> no_panic [o].
Proof. intros H o' [->|[]]; exact H. Qed.

(** ** Layouts *)

Definition lay_for (d : bool) (T : ty) (n : Z) : option Layout := if d then full_layout T n else array_layout T n.

Lemma array_off_facts T : ty_okb T = true ->
  24 <= array_off true T <= 2 ^ 34 /\ array_off true T mod t_align T = 0 /\ array_off true T = item_off (t_align T) /\
  item_align (t_align T) mod 8 = 0 /\ item_align (t_align T) mod t_align T = 0 /\ is_pow2 (item_align (t_align T)) = true /\
  8 <= item_align (t_align T) <= 2 ^ 32.
Proof.
  intros HT. destruct (ty_ok_facts T HT) as (T1 & T2 & T3 & T4 & T5).
  destruct (item_align_facts _ T2) as (A1 & A2 & A3 & A4). destruct (item_off_facts _ T2) as (O1 & O2).
  assert (E : array_off true T = item_off (t_align T)).
  { cbn [array_off head_layout item_layout l_size]. rewrite Z.add_0_r. unfold item_off at 1.
    apply is_pow2_spec in T2. destruct T2 as (j & Hj & Ej).
    destruct (Z.le_gt_cases j 3) as [L|L].
    - assert (C : j = 0 \/ j = 1 \/ j = 2 \/ j = 3) by lia.
      destruct C as [->|[->|[->| ->]]]; rewrite Ej; reflexivity.
    - assert (8 <= t_align T). { rewrite Ej. change 8 with (2 ^ 3). apply Z.pow_le_mono_r; lia. }
      unfold item_align. rewrite Z.max_r by lia. set (a := t_align T) in *.
      fold (item_off a). set (o := item_off a) in *.
      apply Z.mod_divide in O2; [|lia]. destruct O2 as [q Eq]. unfold round_up. rewrite Eq.
      replace (q * a + a - 1) with (a - 1 + q * a) by lia. rewrite Z_div_plus_full by lia.
      rewrite Z.div_small by lia. lia. }
  rewrite E. unfold item_align in *. repeat split; try assumption; lia.
Qed.

Lemma lay_for_facts d T n lay :
  ty_okb T = true -> 0 <= n -> lay_for d T n = Some lay ->
  l_size lay = array_off d T + n * t_size T /\ req_ok ISIZE_MAX lay /\ l_align lay mod t_align T = 0 /\ 0 < l_align lay /\
  (d = true -> l_align lay mod 8 = 0).
Proof.
  intros HT Hn. destruct (ty_ok_facts T HT) as (T1 & T2 & T3 & T4 & T5).
  destruct (array_off_facts T HT) as (F1 & F2 & F3 & F4 & F5 & F6 & F7).
  unfold lay_for, full_layout, array_layout. 
  destruct (Z.leb_spec (n * t_size T) (ISIZE_MAX - (t_align T - 1))) as [L|L].
  2: { destruct d; discriminate. }
  destruct d.
  - change (l_size (head_layout T)) with (array_off true T). change (l_align (head_layout T)) with (item_align (t_align T)).
    remember (array_off true T) as off eqn:Eoff. clear Eoff.
    cbn [l_size l_align]. assert (Em : Z.max (item_align (t_align T)) (t_align T) = item_align (t_align T)) by (unfold item_align; lia).
    rewrite Em. destruct (layout_okb _) eqn:Ok; [|discriminate]. intros E; inversion E; subst lay; clear E. cbn [l_size l_align].
    split; [reflexivity|]. split; [|split; [exact F5|split; [lia|auto]]].
    unfold layout_okb in Ok. cbn [l_size l_align] in Ok. apply andb_true_iff in Ok. destruct Ok as [Ok1 Ok2].
    apply andb_true_iff in Ok1. destruct Ok1 as [Ok1 Ok3].
    apply req_ok_intro; cbn [l_size l_align]; [exact F6|nia|unfold ISIZE_MAX in *; lia].
  - intros E; inversion E; subst lay; clear E. cbn [l_size l_align array_off]. split; [lia|]. split; [|split; [apply Z_mod_same_full|split; [lia|discriminate]]].
    apply req_ok_intro; cbn [l_size l_align]; [exact T2|nia|unfold ISIZE_MAX in *; lia].
Qed.

(** Moved bytes hold the same object. *)
Lemma load_move m m' a b n :
  1 <= n -> (forall i, 0 <= i < n -> m' (b + i) = m (a + i)) -> load m' b n = load m a n.
Proof.
  intros Hn H. unfold load. pose proof (H 0 ltac:(lia)) as H0. rewrite !Z.add_0_r in H0. rewrite H0.
  destruct (m a); try reflexivity.
  replace (all_cells is_tail m' (b + 1) (Z.to_nat (n - 1)))
    with (all_cells is_tail m (a + 1) (Z.to_nat (n - 1))); [reflexivity|].
  apply eq_true_iff_eq. rewrite !all_cells_spec. split; intros G x Hx.
  - replace x with (b + (x - b)) by lia. rewrite H by lia. apply G. lia.
  - replace x with (a + (x - a)) by lia. rewrite <- H by lia. apply G. lia.
Qed.

Section Iter.
  Context {W : Type} (amax smax : Z) (A : Allocator W) (own : W -> list ublock -> Prop).
  Hypothesis Hct : contract amax smax A own.
  Hypothesis Hsm : ISIZE_MAX <= smax.
  Variable dbg : bool.
  Variable bomb : Z -> Z -> bool.
  Notation bmem := (bmem A).
  Notation binv := (binv A own bomb).
  Notation keeps := (keeps A).
  Notation body_ok := (body_ok A own bomb).
  Notation iter := (@iter W).

  (** An allocator that gives exactly what it is asked for, and whose [grow] can
      also shrink. *)
  Definition exact_alloc : Prop :=
    (forall w us l, own w us -> req_ok smax l ->
       wp (al_allocate A l) w (fun r _ => match r with Some b => b_len b = l_size l | None => True end)) /\
    (forall w us u old new, own w (u :: us) -> fits old u -> req_ok smax new -> l_size old <= l_size new ->
       wp (al_grow A (u_ptr u) old new) w (fun r _ => match r with Some b => b_len b = l_size new | None => True end)) /\
    (forall p old new, al_grow A p old new = al_shrink A p old new).
  Variable exact : bool.
  Hypothesis Hex : exact = true -> exact_alloc.

  Lemma wp_and {X B} (m : M X B) w Q1 Q2 : wp m w Q1 -> wp m w Q2 -> wp m w (fun b w' => Q1 b w' /\ Q2 b w').
  Proof. unfold wp. destruct (m w); auto. Qed.

  Lemma safe_allocate' fr s l P :
    binv fr s -> req_ok smax l ->
    safe (on_alloc (al_allocate A l)) s (fun r s' =>
      same_control s s' /\ same_on fr (bmem s) (bmem s') /\
      match r with
      | None => binv fr s'
      | Some b => good_block amax l b /\ binv (mkU (b_ptr b) (b_len b) l :: fr) s' /\ (exact = true -> b_len b = l_size l)
      end) P.
  Proof.
    intros (junk & Ho & H1 & H2 & H3) Hl. apply safe_on_alloc.
    assert (He : wp (al_allocate A l) (bl_w s) (fun r _ => match r with Some b => exact = true -> b_len b = l_size l | None => True end)).
    { destruct exact.
      - eapply wp_mono; [apply (proj1 (Hex eq_refl) _ _ _ Ho Hl)|]. intros [b|] w'; auto.
      - eapply wp_mono; [apply (ct_allocate _ _ _ _ Hct _ _ _ Ho Hl)|]. intros [b|] w' _; auto. discriminate. }
    eapply wp_mono; [apply (wp_and _ _ _ _ (ct_allocate _ _ _ _ Hct _ _ _ Ho Hl) He)|].
    intros r w' ((S & R) & E). split; [repeat split|]. apply same_on_app in S. destruct S as [S1 S2].
    apply same_on_app in S2. destruct S2 as [S2 S3]. split; [exact S3|].
    destruct r as [b|].
    - destruct R as [G Ho']. split; [exact G|]. split; [|exact E]. eapply binv_world; eauto. eapply own_back; eauto.
    - eapply binv_world; eauto.
  Qed.

  Lemma safe_grow u fr s old new P :
    binv (u :: fr) s -> fits old u -> req_ok smax new -> l_size old <= l_size new \/ exact = true ->
    safe (on_alloc (al_grow A (u_ptr u) old new)) s (fun r s' =>
      same_control s s' /\ same_on fr (bmem s) (bmem s') /\
      match r with
      | None => same_on [u] (bmem s) (bmem s') /\ binv (u :: fr) s'
      | Some b => good_block amax new b /\ binv (mkU (b_ptr b) (b_len b) new :: fr) s' /\
          (exact = true -> l_size old <= l_size new -> b_len b = l_size new) /\
          forall i, 0 <= i < Z.min (l_size old) (l_size new) -> bmem s' (b_ptr b + i) = bmem s (u_ptr u + i)
      end) P.
  Proof.
    intros (junk & Ho & H1 & H2 & H3) Hf Hn Hs. eapply own_front in Ho; [|exact Hct]. apply safe_on_alloc.
    assert (Hw : wp (al_grow A (u_ptr u) old new) (bl_w s) (fun r w' =>
      same_on (blocks (bl_tab s) ++ junk ++ fr) (al_mem A (bl_w s)) (al_mem A w') /\
      match r with
      | None => same_on [u] (al_mem A (bl_w s)) (al_mem A w') /\ own w' (u :: blocks (bl_tab s) ++ junk ++ fr)
      | Some b =>
          good_block amax new b /\ own w' (mkU (b_ptr b) (b_len b) new :: blocks (bl_tab s) ++ junk ++ fr) /\
          (exact = true -> l_size old <= l_size new -> b_len b = l_size new) /\
          forall i, 0 <= i < Z.min (l_size old) (l_size new) -> al_mem A w' (b_ptr b + i) = al_mem A (bl_w s) (u_ptr u + i)
      end)).
    { destruct (Z.le_gt_cases (l_size old) (l_size new)) as [L|L].
      - assert (He : wp (al_grow A (u_ptr u) old new) (bl_w s) (fun r _ => match r with Some b => exact = true -> b_len b = l_size new | None => True end)).
        { destruct exact.
          - eapply wp_mono; [apply (proj1 (proj2 (Hex eq_refl)) _ _ _ _ _ Ho Hf Hn L)|]. intros [b|] w'; auto.
          - eapply wp_mono; [apply (ct_grow _ _ _ _ Hct _ _ _ _ _ Ho Hf Hn L)|]. intros [b|] w' _; auto. discriminate. }
        eapply wp_mono; [apply (wp_and _ _ _ _ (ct_grow _ _ _ _ Hct _ _ _ _ _ Ho Hf Hn L) He)|].
        intros r w' ((S & R) & E). split; [exact S|]. destruct r as [b|]; [|exact R].
        destruct R as (R1 & R2 & R3). split; [exact R1|]. split; [exact R2|]. split; [auto|].
        intros i Hi. apply R3. lia.
      - assert (Ee : exact = true) by (destruct Hs; [lia|assumption]).
        rewrite (proj2 (proj2 (Hex Ee))).
        eapply wp_mono; [apply (ct_shrink _ _ _ _ Hct _ _ _ _ _ Ho Hf Hn ltac:(lia))|].
        intros r w' (S & R). split; [exact S|]. destruct r as [b|]; [|exact R].
        destruct R as (R1 & R2 & R3). split; [exact R1|]. split; [exact R2|]. split; [lia|].
        intros i Hi. apply R3. lia. }
    eapply wp_mono; [exact Hw|].
    intros r w' (S & R). split; [repeat split|]. apply same_on_app in S. destruct S as [S1 S2].
    apply same_on_app in S2. destruct S2 as [S2 S3]. split; [exact S3|].
    destruct r as [b|].
    - destruct R as (G & Ho' & R). split; [exact G|]. split; [|exact R]. eapply binv_world; eauto. eapply own_back; eauto.
    - destruct R as (S4 & Ho'). split; [exact S4|]. eapply binv_world; eauto. eapply own_back; eauto.
  Qed.

  (** ** Calls of [next] *)

  (** Calls that may panic for another reason than the script saying so, by the
      number of calls after them. *)
  Variable noisy : nat -> bool.
  Definition blamed (o : next_end) (rest : list next_end) : Prop := o = NPanic \/ noisy (length rest) = true.
  (** Calls of [size_hint] that panic, by the number of calls of [next] after them. *)
  Variable loud : nat -> bool.

  Definition action_ok (T : ty) (m : M (bl W) (option Z)) (o : next_end) (rest : list next_end) : Prop :=
    match o with NSome v => value_okb T v = true | _ => True end /\
    forall fr s, binv fr s ->
      safe m s (fun r s' => binv fr s' /\ keeps fr s s' /\
                  match o with NSome v => r = Some v | NNone => r = None | NPanic => False end)
               (fun s' => binv fr s' /\ keeps fr s s' /\ blamed o rest).
  Definition heard (lo : Z) (n : nat) : Prop := lo = PANICS -> loud n = true.
  Fixpoint its_ok (T : ty) (its : list (Z * option Z * M (bl W) (option Z))) (outs : list next_end) : Prop :=
    match its, outs with
    | [], [] => True
    | x :: its', o :: outs' =>
        (action_ok T (snd x) o outs' /\ hint_okb (fst (fst x)) (snd (fst x)) = true /\ heard (fst (fst x)) (length outs)) /\
        its_ok T its' outs'
    | _, _ => False
    end.

  (** One call: what was taken from the iterator, and the rest. *)
  Definition took (outs : list next_end) (r : option Z) (outs' : list next_end) : Prop :=
    match outs with
    | [] => r = None /\ outs' = []
    | o :: l => outs' = l /\ o <> NPanic /\ somes [o] = match r with Some v => [v] | None => [] end
    end.

  Lemma next_ok T (it : iter) outs fr s :
    its_ok T (fst it) outs -> binv fr s ->
    safe (next T it) s
      (fun r s' => binv fr s' /\ keeps fr s s' /\ snd (snd r) = snd it /\
         exists outs', its_ok T (fst (snd r)) outs' /\ took outs (fst r) outs' /\
           (length (fst (snd r)) <= length (fst it))%nat /\
           match fst r with Some v => value_okb T v = true /\ (length (fst (snd r)) < length (fst it))%nat | None => True end)
      (fun s' => binv fr s' /\ keeps fr s s' /\ exists o rest, outs = o :: rest /\ blamed o rest).
  Proof.
    intros Hits Hi. unfold next. destruct it as [its last]. cbn [fst snd] in *.
    destruct its as [|[h m] its'], outs as [|o outs']; cbn [its_ok] in Hits; try contradiction; [|destruct Hits as [Ha Hr]].
    - apply safe_ret. cbn [fst snd]. split; [exact Hi|]. split; [apply keeps_refl|]. split; [reflexivity|].
      exists []. split; [exact I|]. split; [split; reflexivity|]. split; [constructor|exact I].
    - cbn [snd] in Ha. destruct Ha as [[Hv Ha] _]. apply safe_bind. eapply safe_mono; [apply (Ha fr s Hi)| |].
      2: { intros s1 (B1 & K1 & Hb). split; [exact B1|]. split; [exact K1|]. exists o, outs'. auto. }
      intros r s1 (B1 & K1 & Er). destruct r as [v|].
      + destruct o as [v'| |]; inversion Er; subst v'.
        apply safe_bind. eapply safe_log; [reflexivity|exact B1|]. intros s2 B2 M2 T2 R2 L2. apply safe_ret. cbn [fst snd].
        split; [exact B2|]. split.
        { eapply keeps_trans; [exact K1|]. split; [rewrite M2; apply same_on_refl|eauto]. }
        split; [reflexivity|]. exists outs'. split; [exact Hr|]. split; [|cbn [length]; split; [lia|split; [exact Hv|lia]]].
        split; [reflexivity|]. split; [discriminate|reflexivity].
      + destruct o as [v'| |]; try discriminate; [|contradiction].
        apply safe_ret. cbn [fst snd]. split; [exact B1|]. split; [exact K1|]. split; [reflexivity|].
        exists outs'. split; [exact Hr|]. split; [|cbn [length]; split; [lia|exact I]].
        split; [reflexivity|]. split; [discriminate|reflexivity].
  Qed.

  Lemma took_used outs r outs' : took outs r outs' ->
    exists used, outs = used ++ outs' /\ no_panic used /\ somes used = match r with Some v => [v] | None => [] end /\
      (r = None -> stopped used outs').
  Proof.
    unfold took. destruct outs as [|o l].
    - intros [-> ->]. exists []. split; [reflexivity|]. split; [apply no_panic_nil|]. split; [reflexivity|]. left; reflexivity.
    - intros (-> & Hp & E). exists [o]. split; [reflexivity|]. split; [apply no_panic_one; exact Hp|]. split; [exact E|].
      intros ->. right. exists []. destruct o; cbn in *; try discriminate; try contradiction. reflexivity.
  Qed.

  (** ** The guard *)

  Definition gfr (g : guard) (fr : list ublock) : list ublock := match gu_ptr g with Some u => u :: fr | None => fr end.

  Definition gok (d : bool) (T : ty) (fr : list ublock) (g : guard) (s : bl W) : Prop :=
    gu_count g = Z.of_nat (length (gu_vals g)) /\ binv (gfr g fr) s /\
    match gu_ptr g with
    | None => gu_vals g = []
    | Some u =>
        u_layout u = gu_lay g /\
        (exists n, lay_for d T n = Some (gu_lay g) /\ gu_count g <= n) /\
        elems (bmem s) T (u_ptr u + array_off d T) (gu_vals g)
    end.

  Lemma gok_binv d T fr g s : gok d T fr g s -> binv fr s.
  Proof. intros (_ & B & _). unfold gfr in B. destruct (gu_ptr g); [eapply binv_leak; exact B|exact B]. Qed.

  (** The room of the guard is used up. *)
  Definition gfull (d : bool) (T : ty) (g : guard) : Prop :=
    match gu_ptr g with None => True | Some _ => l_size (gu_lay g) = array_off d T + gu_count g * t_size T end.

  Lemma keeps_gfr g fr s s' : keeps (gfr g fr) s s' -> keeps fr s s'.
  Proof. unfold gfr. destruct (gu_ptr g); [apply keeps_tail|auto]. Qed.

  (** A step that leaves the guard's block alone. *)
  Lemma gok_keeps d T fr g s s' : ty_okb T = true ->
    gok d T fr g s -> binv (gfr g fr) s' -> keeps (gfr g fr) s s' -> gok d T fr g s'.
  Proof.
    intros HT (E & B & G) B' [S _]. split; [exact E|]. split; [exact B'|].
    destruct (ty_ok_facts T HT) as (T1 & T2 & T3 & T4 & T5).
    unfold gfr in *. destruct (gu_ptr g) as [u|] eqn:Eu; [|exact G].
    destruct G as (G1 & (n & G2 & G3) & G4). split; [exact G1|]. split; [eauto|].
    eapply elems_ext; [lia| |exact G4]. intros x Hx. apply (S u); [left; reflexivity|].
    pose proof (binv_good _ _ _ _ Hct _ _ _ _ B) as ((U1 & U2 & U3 & U4) & _ & _). cbn [ublk b_ptr b_len] in *.
    rewrite G1 in U3. destruct (lay_for_facts d T n _ HT ltac:(lia) G2) as (F1 & _).
    assert (0 <= array_off d T) by (destruct d; [destruct (array_off_facts T HT) as ((? & _) & _); lia|cbn; lia]).
    unfold in_u. nia.
  Qed.

  (** *** [flush] *)

  Definition is_nil {X} (l : list X) : bool := match l with [] => true | _ => false end.

  (** What [flush] logs. *)
  Definition flush_log (d : bool) (T : ty) (vals : list Z) (give : bool) : list bev :=
    if is_nil vals then (if give then [ENew false (t_id T) []] else [])
    else [ENew d (t_id T) (map Some vals)].

  Lemma zero_ok k T m : ty_okb T = true -> agree m (Some (mkH [] (t_align T) (t_id T) (t_size T) (t_align T) 0 None k)) (Some (false, t_id T, [])).
  Proof.
    intros HT. destruct (ty_ok_facts T HT) as (T1 & T2 & T3 & T4 & T5).
    cbn [agree registered h_item h_id]. split; [reflexivity|]. split; [reflexivity|]. split; [|split].
    - split; [reflexivity|]. intros [|] v Hv; discriminate.
    - unfold placed. cbn [h_size h_align h_ptr h_cnt h_blks h_item h_id].
      split; [lia|]. split; [lia|]. split; [exact T5|]. split; [apply Z_mod_same_full|]. split; [lia|]. auto.
    - discriminate.
  Qed.

  Lemma flush_ok k T g give fr s P :
    ty_okb T = true -> t_size T <> 0 -> gok (dropping k T) T fr g s ->
    safe (flush_guard A dbg k T g give) s
      (fun _ s' => binv fr s' /\ same_on fr (bmem s) (bmem s') /\
         bl_log s' = bl_log s ++ flush_log (dropping k T) T (gu_vals g) give) P.
  Proof.
    intros HT Hz (E & B & G). destruct (ty_ok_facts T HT) as (T1 & T2 & T3 & T4 & T5).
    unfold flush_guard, flush_log. unfold gfr in B. destruct (gu_ptr g) as [u|].
    2: { rewrite G. cbn [is_nil]. destruct give.
         - eapply (safe_hand_out amax smax A own Hct bomb fr s); [exact B|reflexivity|apply zero_ok; exact HT|].
           intros s' B' M' L'. split; [exact B'|]. split; [rewrite M'; apply same_on_refl|exact L'].
         - apply safe_ret. rewrite app_nil_r. split; [exact B|]. split; [apply same_on_refl|reflexivity]. }
    destruct G as (G1 & (n & G2 & G3) & G4).
    pose proof (binv_good _ _ _ _ Hct _ _ _ _ B) as ((U1 & U2 & U3 & U4) & _ & _). cbn [ublk b_ptr b_len] in *.
    rewrite G1 in U2, U3.
    destruct (lay_for_facts (dropping k T) T n _ HT ltac:(lia) G2) as (F1 & F2 & F3 & F4 & F5).
    destruct (Z.eqb_spec (gu_count g) 0) as [Ec|Ec].
    - assert (Ev : gu_vals g = []) by (destruct (gu_vals g); [reflexivity|cbn in E; lia]). rewrite Ev. cbn [is_nil].
      apply safe_bind.
      eapply safe_mono; [apply (safe_deallocate amax smax A own Hct bomb u fr s (gu_lay g) (fun _ => False) B)| |intros ? []].
      { split; [rewrite G1; reflexivity|]. rewrite G1. lia. }
      intros [] s1 ((C1 & C2 & C3) & S1 & B1). destruct give.
      + eapply (safe_hand_out amax smax A own Hct bomb fr s1); [exact B1|reflexivity|apply zero_ok; exact HT|].
        intros s' B' M' L'. split; [exact B'|]. split; [rewrite M'; exact S1|]. rewrite L', C3. reflexivity.
      + apply safe_ret. rewrite app_nil_r. split; [exact B1|]. split; [exact S1|exact C3].
    - assert (Ev : is_nil (gu_vals g) = false) by (destruct (gu_vals g); [cbn in E; lia|reflexivity]). rewrite Ev.
      assert (Pal : u_ptr u mod t_align T = 0) by (apply (mod_trans _ _ (l_align (gu_lay g))); lia).
      destruct (dropping k T) eqn:Ed.
      + destruct (array_off_facts T HT) as (O1 & O2 & O3 & O4 & O5 & O6 & O7).
        assert (P8 : u_ptr u mod 8 = 0) by (apply (mod_trans _ _ (l_align (gu_lay g))); try lia; auto).
        unfold init_slice. apply safe_bind. apply safe_bind. apply safe_debug_ok.
        { destruct (Z.eqb_spec (gu_count g) 0); [contradiction|reflexivity]. }
        eapply (safe_write_drops amax smax A own Hct bomb u fr); [exact B|exact P8|nia|].
        intros s1 B1 C1 S1 L1 L2 Hf.
        eapply (safe_register amax smax A own Hct bomb u fr s1
                  (mkH [u] (u_ptr u + array_off true T) (t_id T) (t_size T) (t_align T) (gu_count g)
                       (Some (mkGlue (t_id T) (t_size T) (t_size T) (t_align T) 0)) (give && mutable k)));
          [exact B1|reflexivity|reflexivity| |exact L1|exact L2|].
        * cbn [agree registered h_item h_id]. split; [reflexivity|]. split; [reflexivity|]. split; [|split].
          -- apply holds_elems; [symmetry; exact E|]. eapply elems_ext; [lia| |exact G4]. intros x Hx. apply Hf. lia.
          -- unfold placed. cbn [h_size h_align h_ptr h_cnt h_blks h_item h_id].
             split; [lia|]. split; [lia|]. split; [exact T5|]. split.
             { apply mod_add0; [lia|exact Pal|exact O2]. }
             split; [lia|]. split; [lia|]. split; [nia|]. cbn [g_id g_tsize g_xsize g_xalign g_xoff].
             split; [unfold glue_ok; cbn; lia|]. split; [reflexivity|]. split; [reflexivity|]. split; [exact P8|].
             split; [lia|]. split; [lia|]. right; reflexivity.
          -- intros _. apply Forall_forall. intros x Hx. apply in_map_iff in Hx. destruct Hx as (y & <- & _). discriminate.
        * intros s' B' S' L'. cbn [h_id] in L'. split; [exact B'|]. split; [eapply same_on_trans; eassumption|].
          rewrite L'. destruct C1 as (_ & _ & ->). reflexivity.
      + cbn [array_off] in *. rewrite Z.add_0_r in G4.
        eapply (safe_hand_out amax smax A own Hct bomb fr s); [exact B|reflexivity| |].
        * cbn [agree registered h_item h_id]. split; [reflexivity|]. split; [reflexivity|]. split; [|split].
          -- apply holds_elems; [symmetry; exact E|exact G4].
          -- unfold placed. cbn [h_size h_align h_ptr h_cnt h_blks h_item h_id].
             split; [lia|]. split; [lia|]. split; [exact T5|]. split; [exact Pal|]. split; [lia|]. split; [lia|]. split; [nia|exact I].
          -- discriminate.
        * intros s' B' M' L'. cbn [h_id] in L'. split; [exact B'|]. split; [rewrite M'; apply same_on_refl|exact L'].
  Qed.

  (** *** A call of [next] while the guard is alive *)

  (** What a panic of the iterator leaves behind: with dropping, the elements
      collected so far are in the care of the [Blink]. *)
  Definition saved (d : bool) (T : ty) (vals : list Z) : list bev := if d then flush_log d T vals false else [].
  Definition panicked (d : bool) (T : ty) (fr : list ublock) (vals : list Z) (outs : list next_end) (s s' : bl W) : Prop :=
    binv fr s' /\ keeps fr s s' /\
    exists used o rest, outs = used ++ o :: rest /\ no_panic used /\ blamed o rest /\ ends s s' (saved d T (vals ++ somes used)).

  Lemma guarded_ok k T (it : iter) outs g fr s :
    ty_okb T = true -> t_size T <> 0 -> its_ok T (fst it) outs -> gok (dropping k T) T fr g s ->
    safe (guarded A dbg k T g (next T it)) s
      (fun r s' => gok (dropping k T) T fr g s' /\ keeps fr s s' /\ snd (snd r) = snd it /\
         exists outs', its_ok T (fst (snd r)) outs' /\ took outs (fst r) outs' /\
           (length (fst (snd r)) <= length (fst it))%nat /\
           match fst r with Some v => value_okb T v = true /\ (length (fst (snd r)) < length (fst it))%nat | None => True end)
      (panicked (dropping k T) T fr (gu_vals g) outs s).
  Proof.
    intros HT Hz Hits Hg. pose proof (next_ok T it outs (gfr g fr) s Hits (proj1 (proj2 Hg))) as Hn.
    unfold guarded, on_unwind, safe in *. destruct (next T it s) as [r s1|s1| |] eqn:En; auto.
    - destruct Hn as (B1 & K1 & R). split; [eapply gok_keeps; eassumption|].
      split; [eapply keeps_gfr; exact K1|exact R].
    - destruct Hn as (B1 & K1 & o & rest & -> & Hb). assert (G1 : gok (dropping k T) T fr g s1) by (eapply gok_keeps; eassumption).
      apply keeps_gfr in K1. destruct (dropping k T) eqn:Ed.
      + pose proof (flush_ok k T g false fr s1 (fun _ => False) HT Hz) as Hf. rewrite Ed in Hf. specialize (Hf G1).
        unfold safe in Hf. destruct (flush_guard A dbg k T g false s1) as [[] s2|s2| |]; [|contradiction Hf|exact I|contradiction Hf].
        destruct Hf as (B2 & S2 & L2). split; [exact B2|].
        assert (En2 : ends s s2 (saved true T (gu_vals g ++ somes []))).
        { cbn [somes flat_map]. rewrite app_nil_r. eapply ends_after; [exact K1|exact L2]. }
        split; [split; [eapply same_on_trans; [apply K1|exact S2]|eapply ends_keeps; exact En2]|].
        exists [], o, rest. split; [reflexivity|]. split; [apply no_panic_nil|]. split; [exact Hb|exact En2].
      + cbn [ret]. split; [eapply gok_binv; exact G1|]. split; [exact K1|].
        exists [], o, rest. split; [reflexivity|]. split; [apply no_panic_nil|]. split; [exact Hb|]. cbn [saved].
        destruct K1 as [_ [d0 E0]]. exists d0. rewrite app_nil_r. exact E0.
  Qed.

  Lemma panicked_after d T fr vals used outs s s1 s' :
    no_panic used -> keeps fr s s1 -> panicked d T fr (vals ++ somes used) outs s1 s' ->
    panicked d T fr vals (used ++ outs) s s'.
  Proof.
    intros Hp K (B & K1 & used1 & o & rest & -> & Hp1 & Hb & En). split; [exact B|]. split; [eapply keeps_trans; eassumption|].
    exists (used ++ used1), o, rest. split; [apply app_assoc|]. split; [apply no_panic_app; assumption|]. split; [exact Hb|].
    rewrite somes_app, app_assoc. destruct En as [d0 E0]. destruct K as [_ [d1 E1]]. exists (d1 ++ d0).
    rewrite E0, E1, <- !app_assoc. reflexivity.
  Qed.

  (** *** The loop in [fill] *)

  Lemma slot_fill k T g u a fr s (Q : unit -> bl W -> Prop) P :
    ty_okb T = true -> gok (dropping k T) T fr g s -> gu_ptr g = Some u -> a = u_ptr u + array_off (dropping k T) T ->
    array_off (dropping k T) T + (gu_count g + 1) * t_size T <= l_size (gu_lay g) ->
    (forall s', gok (dropping k T) T fr g s' -> same_control s s' -> same_on fr (bmem s) (bmem s') -> Q tt s') ->
    safe (if t_niche T then on_alloc (mfill A (a + gu_count g * t_size T) (t_size T) Undef) else ret tt) s Q P.
  Proof.
    intros HT (E & B & G) Eu -> Hroom HQ. destruct (ty_ok_facts T HT) as (T1 & T2 & T3 & T4 & T5).
    destruct (t_niche T).
    2: { apply safe_ret. apply HQ; [|apply same_control_refl|apply same_on_refl]. split; [exact E|]. split; assumption. }
    unfold gfr in B. rewrite Eu in *. destruct G as (G1 & (n & G2 & G3) & G4).
    pose proof (binv_good _ _ _ _ Hct _ _ _ _ B) as ((U1 & U2 & U3 & U4) & _ & _). cbn [ublk b_ptr b_len] in *. rewrite G1 in U3.
    assert (0 <= array_off (dropping k T) T) by (destruct (dropping k T); [destruct (array_off_facts T HT) as ((? & _) & _); lia|cbn; lia]).
    eapply (safe_fill amax smax A own Hct bomb u fr); [exact B|nia|nia|].
    intros s' B' C' M' S'. apply HQ; auto. split; [exact E|]. unfold gfr. rewrite Eu. split; [exact B'|].
    split; [exact G1|]. split; [eauto|]. eapply elems_ext; [lia| |exact G4]. intros x Hx. rewrite M'. apply fill_other. nia.
  Qed.

  Lemma slot_write k T g u a v fr s (Q : unit -> bl W -> Prop) P :
    ty_okb T = true -> value_okb T v = true -> gok (dropping k T) T fr g s -> gu_ptr g = Some u ->
    a = u_ptr u + array_off (dropping k T) T ->
    array_off (dropping k T) T + (gu_count g + 1) * t_size T <= l_size (gu_lay g) -> t_size T <> 0 ->
    (forall s', gok (dropping k T) T fr (mkGu (gu_ptr g) (gu_count g + 1) (gu_cap g) (gu_lay g) (gu_vals g ++ [v])) s' ->
       same_control s s' -> same_on fr (bmem s) (bmem s') -> Q tt s') ->
    safe (write_value A T (a + gu_count g * t_size T) v) s Q P.
  Proof.
    intros HT Hv (E & B & G) Eu -> Hroom Hz HQ. destruct (ty_ok_facts T HT) as (T1 & T2 & T3 & T4 & T5).
    unfold gfr in B. rewrite Eu in *. destruct G as (G1 & (n & G2 & G3) & G4).
    pose proof (binv_good _ _ _ _ Hct _ _ _ _ B) as ((U1 & U2 & U3 & U4) & _ & _). cbn [ublk b_ptr b_len] in *. rewrite G1 in U2, U3.
    destruct (lay_for_facts (dropping k T) T n _ HT ltac:(lia) G2) as (F1 & F2 & F3 & F4 & F5).
    assert (Ho : 0 <= array_off (dropping k T) T /\ array_off (dropping k T) T mod t_align T = 0).
    { destruct (dropping k T); [destruct (array_off_facts T HT) as ((? & _) & ? & _); lia|cbn; split; [lia|reflexivity]]. }
    eapply (safe_write_value amax smax A own Hct bomb u fr); [exact HT|exact Hv|exact B| |nia|nia|].
    { apply mod_add0; [lia| |apply mod_mul0; [lia|exact T5]]. apply mod_add0; [lia| |apply Ho].
      apply (mod_trans _ _ (l_align (gu_lay g))); lia. }
    intros s' B' C' S' V' F'. apply HQ; auto. unfold gok, gfr. cbn [gu_ptr gu_count gu_cap gu_lay gu_vals].
    rewrite app_length. cbn [length]. split; [lia|]. split; [exact B'|]. split; [exact G1|]. split; [exists n; split; [exact G2|nia]|].
    apply elems_snoc.
    - eapply elems_ext; [lia| |exact G4]. intros x Hx. apply F'. left. nia.
    - rewrite <- E. exact V'.
  Qed.

  Lemma fill_loop_ok k T u last : forall its outs g s a lim n fr,
    ty_okb T = true -> t_size T <> 0 -> its_ok T its outs -> gok (dropping k T) T fr g s ->
    gu_ptr g = Some u -> a = u_ptr u + array_off (dropping k T) T ->
    lay_for (dropping k T) T n = Some (gu_lay g) -> lim <= n -> 0 <= n ->
    safe (fill_loop A dbg k T a lim its last g) s
      (fun r s' => gok (dropping k T) T fr (fst r) s' /\ keeps fr s s' /\
         gu_ptr (fst r) = Some u /\ gu_lay (fst r) = gu_lay g /\ snd (snd r) = last /\
         exists used outs', outs = used ++ outs' /\ no_panic used /\ its_ok T (fst (snd r)) outs' /\
           (length (fst (snd r)) <= length its)%nat /\ gu_vals (fst r) = gu_vals g ++ somes used /\
           (lim <= gu_count (fst r) \/ stopped used outs'))
      (panicked (dropping k T) T fr (gu_vals g) outs s).
  Proof.
    induction its as [|x its IH]; intros outs g s a lim n fr HT Hz Hits Hg Eu Ea Hl Hlim Hn; cbn [fill_loop].
    - destruct (Z.ltb_spec (gu_count g) lim) as [L|L].
      + destruct (lay_for_facts (dropping k T) T n _ HT Hn Hl) as (F1 & _).
        destruct (ty_ok_facts T HT) as (T1 & T2 & T3 & T4 & T5).
        destruct outs as [|o outs]; [|contradiction Hits]. apply safe_bind. eapply slot_fill; [exact HT|exact Hg|exact Eu|exact Ea|rewrite F1; nia|].
        intros s1 G1 C1 S1. apply safe_ret. cbn [fst snd]. split; [exact G1|].
        split; [apply same_control_keeps; assumption|]. split; [exact Eu|]. split; [reflexivity|]. split; [reflexivity|].
        exists [], []. split; [reflexivity|]. split; [apply no_panic_nil|]. split; [exact I|]. split; [lia|].
        split; [symmetry; apply app_nil_r|]. right. left. reflexivity.
      + apply safe_ret. cbn [fst snd]. split; [exact Hg|]. split; [apply keeps_refl|]. split; [exact Eu|].
        split; [reflexivity|]. split; [reflexivity|]. exists [], outs. split; [reflexivity|]. split; [apply no_panic_nil|].
        split; [exact Hits|]. split; [lia|]. split; [symmetry; apply app_nil_r|]. left. lia.
    - destruct (Z.ltb_spec (gu_count g) lim) as [L|L].
      + destruct (lay_for_facts (dropping k T) T n _ HT Hn Hl) as (F1 & _).
        destruct (ty_ok_facts T HT) as (T1 & T2 & T3 & T4 & T5).
        apply safe_bind. eapply safe_mono; [apply (guarded_ok k T (x :: its, last) outs g fr s HT Hz Hits Hg)| |auto].
        intros [r it'] s1 (G1 & K1 & El & outs' & Ho & Ht & Hlen & Hv). cbn [fst snd] in *.
        assert (Eits : its_ok T its outs').
        { destruct outs as [|o l]; [contradiction Hits|]. destruct Ht as (-> & _). apply Hits. }
        destruct (took_used _ _ _ Ht) as (used & -> & Hp & Es & Hst).
        destruct r as [v|].
        * destruct Hv as [Hv Hlt]. apply safe_bind.
          eapply slot_write; [exact HT|exact Hv|exact G1|exact Eu|exact Ea|rewrite F1; nia|exact Hz|].
          intros s2 G2 C2 S2. set (g2 := mkGu _ _ _ _ _) in *.
          assert (K2 : keeps fr s s2) by (eapply keeps_trans; [exact K1|apply same_control_keeps; assumption]).
          eapply safe_mono; [apply (IH outs' g2 s2 a lim n fr HT Hz Eits G2 Eu Ea Hl Hlim Hn)| |].
          -- intros [g' it2] s3 (G3 & K3 & E1 & E2 & E3 & used2 & outs2 & -> & Hp2 & Hi2 & Hlen2 & Ev & Hend). cbn [fst snd] in *.
             split; [exact G3|]. split; [eapply keeps_trans; eassumption|]. split; [exact E1|]. split; [exact E2|]. split; [exact E3|].
             exists (used ++ used2), outs2. split; [apply app_assoc|]. split; [apply no_panic_app; assumption|].
             split; [exact Hi2|]. split; [cbn [length]; lia|]. split.
             ++ rewrite Ev. cbn [g2 gu_vals]. rewrite somes_app, Es, <- app_assoc. reflexivity.
             ++ destruct Hend as [Hend|[->|[l ->]]]; [left; exact Hend|right; left; reflexivity|].
                right. right. exists (used ++ l). apply app_assoc.
          -- intros s3 Hpan. eapply panicked_after; [exact Hp|exact K2|]. rewrite Es. exact Hpan.
        * apply safe_bind. eapply slot_fill; [exact HT|exact G1|exact Eu|exact Ea|rewrite F1; nia|].
          intros s2 G2 C2 S2. apply safe_ret. cbn [fst snd]. split; [exact G2|].
          split; [eapply keeps_trans; [exact K1|apply same_control_keeps; assumption]|].
          split; [exact Eu|]. split; [reflexivity|]. split; [reflexivity|].
          exists used, outs'. split; [reflexivity|]. split; [exact Hp|]. split; [exact Eits|]. split; [cbn [length]; lia|].
          split; [rewrite Es; symmetry; apply app_nil_r|]. right. apply Hst. reflexivity.
      + apply safe_ret. cbn [fst snd]. split; [exact Hg|]. split; [apply keeps_refl|]. split; [exact Eu|].
        split; [reflexivity|]. split; [reflexivity|]. exists [], outs. split; [reflexivity|]. split; [apply no_panic_nil|].
        split; [exact Hits|]. split; [lia|]. split; [symmetry; apply app_nil_r|]. left. lia.
  Qed.

  (** *** [fill] *)

  Definition opt_list (o : option Z) : list Z := match o with Some v => [v] | None => [] end.

  Lemma array_off_nonneg d T : ty_okb T = true -> 0 <= array_off d T.
  Proof. intros HT. destruct d; [destruct (array_off_facts T HT) as ((? & _) & _); lia|cbn; lia]. Qed.

  Definition fill_post (k : entry) (T : ty) (size_hint : Z) (one : option Z) (it : iter) (outs : list next_end) (g : guard) (fr : list ublock) (s : bl W)
    (r : guard * iter * option Z * option (option Layout)) (s' : bl W) : Prop :=
    let '(g', it', one', e) := r in
         keeps fr s s' /\ gok (dropping k T) T fr g' s' /\ snd it' = snd it /\
         match e with
         | Some why => g' = g /\ one' = one /\ it' = it /\ (why = None -> lay_for (dropping k T) T size_hint = None)
         | None => one' = None /\
             exists used outs', outs = used ++ outs' /\ no_panic used /\ its_ok T (fst it') outs' /\
               (length (fst it') <= length (fst it))%nat /\ gu_vals g' = gu_vals g ++ opt_list one ++ somes used /\
               (gfull (dropping k T) T g' \/ stopped used outs')
         end.

  Lemma fill_guard_ok k T size one (it : iter) outs g fr s :
    ty_okb T = true -> t_size T <> 0 -> its_ok T (fst it) outs -> gok (dropping k T) T fr g s ->
    match one with Some v => value_okb T v = true | None => True end ->
    0 <= size -> gu_count g + Z.of_nat (length (opt_list one)) <= size ->
    gfull (dropping k T) T g \/ (exact = true /\ dropping k T = false) -> (dropping k T = true -> exact = true) ->
    safe (fill_guard A dbg k T size one it g) s
      (fill_post k T size one it outs g fr s)
      (panicked (dropping k T) T fr (gu_vals g ++ opt_list one) outs s).
  Proof.
    intros HT Hz Hits Hg Hone Hs Hroom Hgrow Hexd. unfold fill_guard. fold (lay_for (dropping k T) T size).
    destruct (ty_ok_facts T HT) as (T1 & T2 & T3 & T4 & T5). pose proof (array_off_nonneg (dropping k T) T HT) as Hoff.
    assert (Hfail : forall s1, gok (dropping k T) T fr g s1 -> keeps fr s s1 -> forall w, (w = None -> lay_for (dropping k T) T size = None) ->
      fill_post k T size one it outs g fr s (g, it, one, Some w) s1).
    { intros s1 G1 K1 w Hw. split; [exact K1|]. split; [exact G1|]. split; [reflexivity|]. auto. }
    destruct (lay_for (dropping k T) T size) as [lay|] eqn:El.
    2: { apply safe_ret. apply Hfail; [exact Hg|apply keeps_refl|auto]. }
    destruct (lay_for_facts (dropping k T) T size lay HT Hs El) as (F1 & F2 & F3 & F4 & F5).
    assert (Hreq : req_ok smax lay) by (apply (req_ok_mono ISIZE_MAX); assumption).
    pose proof Hg as (Ec & B & G).
    apply safe_bind.
    (* the block: fresh or grown *)
    apply (safe_mono _ _ (fun r s1 =>
        same_control s s1 /\ same_on fr (bmem s) (bmem s1) /\
        match r with
        | None => gok (dropping k T) T fr g s1
        | Some b => good_block amax lay b /\ binv (mkU (b_ptr b) (b_len b) lay :: fr) s1 /\
            (dropping k T = true -> b_len b = l_size lay) /\
            elems (bmem s1) T (b_ptr b + array_off (dropping k T) T) (gu_vals g)
        end) _ (fun _ => False) _).
    { unfold gfr in B. destruct (gu_ptr g) as [u|] eqn:Eu.
      - destruct G as (G1 & (n & G2 & G3) & G4).
        pose proof (binv_good _ _ _ _ Hct _ _ _ _ B) as ((U1 & U2 & U3 & U4) & _ & _). cbn [ublk b_ptr b_len] in *.
        rewrite G1 in U2, U3.
        destruct (lay_for_facts (dropping k T) T n _ HT ltac:(lia) G2) as (N1 & N2 & N3 & N4 & N5).
        assert (Hle : l_size (gu_lay g) <= l_size lay \/ exact = true /\ dropping k T = false).
        { destruct Hgrow as [Hgrow|Hgrow]; [left|right; exact Hgrow]. unfold gfull in Hgrow. rewrite Eu in Hgrow. rewrite Hgrow, F1. nia. }
        eapply safe_mono; [apply (safe_grow u fr s (gu_lay g) lay (fun _ => False) B)| |intros ? []].
        + split; [rewrite G1; reflexivity|]. rewrite G1. lia.
        + exact Hreq.
        + destruct Hle as [Hle|[Hle _]]; auto.
        + intros [b|] s1 (C1 & S1 & R); split; auto; split; auto.
          * destruct R as (R1 & R2 & R3 & R4). split; [exact R1|]. split; [exact R2|]. split.
            { intros Hd. apply R3; [auto|]. destruct Hle as [Hle|[_ Hle]]; [exact Hle|congruence]. }
            intros i v Hi. specialize (G4 i v Hi). destruct (Z.eqb_spec (t_size T) 0); [contradiction|].
            assert ((i < length (gu_vals g))%nat) by (apply nth_error_Some; congruence).
            rewrite <- G4. apply load_move; [lia|]. intros x Hx.
            rewrite <- !Z.add_assoc. apply R4. rewrite F1, N1. nia.
          * destruct R as (S2 & R). split; [exact Ec|]. unfold gfr. rewrite Eu. split; [exact R|]. split; [exact G1|].
            split; [eauto|]. eapply elems_ext; [lia| |exact G4]. intros x Hx. apply (S2 u); [left; reflexivity|]. unfold in_u. nia.
      - eapply safe_mono; [apply (safe_allocate' fr s lay (fun _ => False) B Hreq)| |intros ? []].
        intros [b|] s1 (C1 & S1 & R); split; auto; split; auto.
        + destruct R as (R1 & R2 & R3). split; [exact R1|]. split; [exact R2|]. split; [auto|]. rewrite G.
          intros [|i] v Hi; discriminate.
        + split; [exact Ec|]. unfold gfr. rewrite Eu. split; [exact R|exact G]. }
    2: { intros ? []. }
    intros [b|] s1 (C1 & S1 & R).
    2: { apply safe_ret. apply Hfail; [exact R|apply same_control_keeps; assumption|discriminate]. }
    destruct R as ((R1 & R2 & R3 & R4) & R5 & R6 & R7).
    set (u := mkU (b_ptr b) (b_len b) lay) in *.
    assert (K1 : keeps fr s s1) by (apply same_control_keeps; assumption).
    apply safe_bind.
    apply (safe_mono _ _ (fun _ s' => s' = s1) _ (fun _ => False) _); [|intros [] s' ->|intros ? []].
    { destruct (Z.ltb_spec (l_size lay) (b_len b)); [apply safe_ret; reflexivity|]. apply safe_debug_ok; [|reflexivity].
      apply Z.eqb_eq. lia. }
    set (cap := if l_size lay <? b_len b then (b_len b - array_off (dropping k T) T) / t_size T else size).
    assert (Hcap : size <= cap /\ (dropping k T = true -> cap = size)).
    { unfold cap. destruct (Z.ltb_spec (l_size lay) (b_len b)) as [L|L]; [|split; [lia|auto]]. split.
      - apply Z.div_le_lower_bound; [lia|]. rewrite F1 in L. lia.
      - intros Hd. specialize (R6 Hd). lia. }
    set (g1 := mkGu (Some u) (gu_count g) cap lay (gu_vals g)).
    assert (G1 : gok (dropping k T) T fr g1 s1).
    { unfold g1, gok, gfr. cbn [gu_ptr gu_count gu_lay gu_vals u u_layout u_ptr]. split; [exact Ec|]. split; [exact R5|]. split; [reflexivity|].
      split; [exists size; split; [exact El|lia]|exact R7]. }
    apply safe_bind.
    apply (safe_mono _ _ (fun g2 s2 => gok (dropping k T) T fr g2 s2 /\ keeps fr s s2 /\ gu_ptr g2 = Some u /\ gu_lay g2 = lay /\
                                       gu_vals g2 = gu_vals g ++ opt_list one) _ (fun _ => False) _); [|intros g2 s2 (G2 & K2 & P2 & L2 & V2)|intros ? []].
    { destruct one as [v|].
      - cbn [opt_list length] in *. apply safe_bind. apply safe_debug_ok.
        { cbn [g1 gu_count]. apply Z.ltb_lt. lia. }
        apply safe_bind. eapply (slot_write k T g1 u); [exact HT|exact Hone|exact G1|reflexivity|reflexivity| |exact Hz|].
        { cbn [g1 gu_count gu_lay]. rewrite F1. nia. }
        intros s2 G2 C2 S2. apply safe_ret. cbn [g1 gu_ptr gu_count gu_cap gu_lay gu_vals] in *. split; [exact G2|].
        split; [eapply keeps_trans; [exact K1|apply same_control_keeps; assumption]|]. auto.
      - apply safe_ret. cbn [opt_list g1 gu_ptr gu_lay gu_vals]. rewrite app_nil_r. auto. }
    apply safe_bind.
    eapply safe_mono; [apply (fill_loop_ok k T u (snd it) (fst it) outs g2 s2 _ _ size fr HT Hz Hits G2 P2 eq_refl)| |].
    { rewrite L2. exact El. }
    { destruct (dropping k T) eqn:Ed; [|lia]. destruct Hcap as [_ Hcap]. rewrite Hcap by reflexivity. lia. }
    { exact Hs. }
    - intros [g3 it3] s3 (G3 & K3 & P3 & L3 & E3 & used & outs' & -> & Hp & Hi3 & Hlen & V3 & Hend). cbn [fst snd] in *.
      apply safe_ret. split; [eapply keeps_trans; eassumption|]. split; [exact G3|]. split; [exact E3|]. split; [reflexivity|].
      exists used, outs'. split; [reflexivity|]. split; [exact Hp|]. split; [exact Hi3|]. split; [exact Hlen|].
      split; [rewrite V3, V2, <- app_assoc; reflexivity|].
      destruct Hend as [Hend|Hend]; [left|right; exact Hend].
      assert (size <= gu_count g3) by (destruct (dropping k T); [destruct Hcap as [Hcap _]|]; lia).
      unfold gfull. rewrite P3, L3, L2, F1. pose proof G3 as (Ec3 & _ & G3'). rewrite P3 in G3'.
      destruct G3' as (_ & (n & N1 & N2) & _). rewrite L3, L2 in N1.
      destruct (lay_for_facts (dropping k T) T n lay HT ltac:(lia) N1) as (N3 & _). rewrite F1 in N3. nia.
    - intros s3 Hpan. rewrite <- (app_nil_l outs). eapply (panicked_after _ _ _ _ []); [apply no_panic_nil|exact K2|].
      cbn [somes flat_map]. rewrite app_nil_r. rewrite V2 in Hpan. exact Hpan.
  Qed.

  (** *** The whole *)

  (** [from_iter] returns: everything taken from the iterator is in the slice, or
      (a failed [try_from_iter]) in the slice and the element given back. *)
  Definition collected (d : bool) (tr : oom) (T : ty) (pre : list Z) (outs : list next_end) (s s' : bl W) : Prop :=
    exists used rest, outs = used ++ rest /\ no_panic used /\
      ((stopped used rest /\ ends s s' (flush_log d T (pre ++ somes used) true)) \/
       (tr = Try /\ exists vals one, pre ++ somes used = vals ++ opt_list one /\
          ends s s' (flush_log d T vals true ++ EFail :: map (EBack (t_id T)) (opt_list one)))).

  (** [from_iter] panics: because the iterator does, or because the size overflows
      ([big] - at once, because of the first hint) or memory is exhausted, or because
      [size_hint] does. *)
  Definition unwound (d : bool) (tr : oom) (big : Prop) (T : ty) (pre : list Z) (outs : list next_end) (s s' : bl W) : Prop :=
    exists used rest, outs = used ++ rest /\ no_panic used /\
      ((exists o rest', rest = o :: rest' /\ blamed o rest' /\ ends s s' (saved d T (pre ++ somes used))) \/
       (tr <> Try /\ exists vals v, pre ++ somes used = vals ++ [v] /\ ends s s' (flush_log d T vals false ++ early T v)) \/
       (tr <> Try /\ (big \/ tr = Unwinds) /\ pre ++ somes used = [] /\ ends s s' []) \/
       (loud (length rest) = true /\
          ((exists vals v, pre ++ somes used = vals ++ [v] /\ ends s s' (early T v ++ saved d T vals)) \/
           (pre ++ somes used = [] /\ ends s s' [])))).

  Definition from_iter_post (d : bool) (tr : oom) (T : ty) (fr : list ublock) (pre : list Z) (outs : list next_end) (s s' : bl W) : Prop :=
    binv fr s' /\ keeps fr s s' /\ collected d tr T pre outs s s'.
  Definition from_iter_panic (d : bool) (tr : oom) (big : Prop) (T : ty) (fr : list ublock) (pre : list Z) (outs : list next_end) (s s' : bl W) : Prop :=
    binv fr s' /\ keeps fr s s' /\ unwound d tr big T pre outs s s'.

  Lemma ends_trans fr s s1 s' d : keeps fr s s1 -> ends s1 s' d -> ends s s' d.
  Proof. intros [_ [d1 E1]] [d0 E0]. exists (d1 ++ d0). rewrite E0, E1, <- !app_assoc. reflexivity. Qed.

  Lemma stopped_app l used rest : stopped used rest -> stopped (l ++ used) rest.
  Proof. intros [->|[k ->]]; [left; reflexivity|]. right. exists (l ++ k). apply app_assoc. Qed.

  Lemma post_after d tr T fr pre used outs s s1 s' :
    no_panic used -> keeps fr s s1 -> from_iter_post d tr T fr (pre ++ somes used) outs s1 s' ->
    from_iter_post d tr T fr pre (used ++ outs) s s'.
  Proof.
    intros Hp K (B & K1 & used1 & rest & -> & Hp1 & H). split; [exact B|]. split; [eapply keeps_trans; eassumption|].
    exists (used ++ used1), rest. split; [apply app_assoc|]. split; [apply no_panic_app; assumption|].
    rewrite somes_app, app_assoc. destruct H as [[Hs H]|(Ht & vals & one & E & H)].
    - left. split; [apply stopped_app; exact Hs|]. eapply ends_trans; eassumption.
    - right. split; [exact Ht|]. exists vals, one. split; [exact E|]. eapply ends_trans; eassumption.
  Qed.

  Lemma panic_after d tr big T fr pre used outs s s1 s' :
    no_panic used -> keeps fr s s1 -> from_iter_panic d tr big T fr (pre ++ somes used) outs s1 s' ->
    from_iter_panic d tr big T fr pre (used ++ outs) s s'.
  Proof.
    intros Hp K (B & K1 & used1 & rest & -> & Hp1 & H). split; [exact B|]. split; [eapply keeps_trans; eassumption|].
    exists (used ++ used1), rest. split; [apply app_assoc|]. split; [apply no_panic_app; assumption|].
    rewrite somes_app, app_assoc. destruct H as [(o & rest' & Er & Hb & H)|[(Ht & vals & v & E & H)|[(Ht & Hbig & E & H)|(Hl & [(vals & v & E & H)|(E & H)])]]].
    - left. exists o, rest'. split; [exact Er|]. split; [exact Hb|]. eapply ends_trans; eassumption.
    - right. left. split; [exact Ht|]. exists vals, v. split; [exact E|]. eapply ends_trans; eassumption.
    - right. right. left. split; [exact Ht|]. split; [exact Hbig|]. split; [exact E|]. eapply ends_trans; eassumption.
    - right. right. right. split; [exact Hl|]. left. exists vals, v. split; [exact E|]. eapply ends_trans; eassumption.
    - right. right. right. split; [exact Hl|]. right. split; [exact E|]. eapply ends_trans; eassumption.
  Qed.

  Lemma panicked_panic d tr big T fr pre outs s s' : panicked d T fr pre outs s s' -> from_iter_panic d tr big T fr pre outs s s'.
  Proof.
    intros (B & K & used & o & rest & E & Hp & Hb & H). split; [exact B|]. split; [exact K|]. exists used, (o :: rest).
    split; [exact E|]. split; [exact Hp|]. left. eauto.
  Qed.

  Lemma ends_log (s s' : bl W) d : bl_log s' = bl_log s ++ d -> ends s s' d.
  Proof. intros E. exists []. exact E. Qed.

  Lemma from_iter_failed_ok (big : Prop) k tr T g one why outs fr s :
    ty_okb T = true -> t_size T <> 0 -> gok (dropping k T) T fr g s ->
    (one = None -> gu_vals g = [] /\ (why = None -> big)) ->
    safe (from_iter_failed A dbg bomb k tr T g one why) s
      (fun _ s' => from_iter_post (dropping k T) tr T fr (gu_vals g ++ opt_list one) outs s s')
      (from_iter_panic (dropping k T) tr big T fr (gu_vals g ++ opt_list one) outs s).
  Proof.
    intros HT Hz Hg Hbig. unfold from_iter_failed. destruct (tries tr) eqn:Et.
    - apply safe_bind. eapply safe_mono; [apply (flush_ok k T g true fr s (fun _ => False) HT Hz Hg)| |intros ? []].
      intros [] s1 (B1 & S1 & L1).
      apply safe_bind. eapply safe_log; [reflexivity|exact B1|]. intros s2 B2 M2 _ _ L2.
      assert (Goal2 : forall s3, binv fr s3 -> bmem s3 = bmem s2 -> bl_log s3 = bl_log s2 ++ map (EBack (t_id T)) (opt_list one) ->
                from_iter_post (dropping k T) tr T fr (gu_vals g ++ opt_list one) outs s s3).
      { intros s3 B3 M3 L3.
        assert (L : bl_log s3 = bl_log s ++ flush_log (dropping k T) T (gu_vals g) true ++ EFail :: map (EBack (t_id T)) (opt_list one)).
        { rewrite L3, L2, L1, <- !app_assoc. reflexivity. }
        split; [exact B3|]. split; [split; [rewrite M3, M2; exact S1|eauto]|].
        exists [], outs. split; [reflexivity|]. split; [apply no_panic_nil|]. right. split; [destruct tr; [reflexivity|discriminate..]|].
        exists (gu_vals g), one. split; [cbn; rewrite app_nil_r; reflexivity|apply ends_log; exact L]. }
      destruct one as [v|].
      + eapply safe_log; [reflexivity|exact B2|]. intros s3 B3 M3 _ _ L3. apply Goal2; assumption.
      + apply safe_ret. apply Goal2; [exact B2|reflexivity|]. cbn. rewrite app_nil_r. reflexivity.
    - apply safe_bind. eapply safe_mono; [apply (flush_ok k T g false fr s (fun _ => False) HT Hz Hg)| |intros ? []].
      intros [] s1 (B1 & S1 & L1).
      assert (Nt : tr <> Try) by (destruct tr; [discriminate|discriminate..]).
      assert (Go : (why = None \/ tr = Unwinds) ->
        safe (match one with Some v => drop_unwinding bomb T v | None => ret tt end ;;; panic) s1
          (fun (_ : unit) s' => from_iter_post (dropping k T) tr T fr (gu_vals g ++ opt_list one) outs s s')
          (from_iter_panic (dropping k T) tr big T fr (gu_vals g ++ opt_list one) outs s)).
      { intros Hwhy. destruct one as [v|]; cbn [opt_list].
        - apply safe_bind.
          eapply safe_mono; [apply (drop_unwinding_ok A own bomb T v fr s1 (fun _ => False) B1)| |intros ? []].
          intros [] s3 (B3 & M3 & _ & _ & L3). apply safe_panic.
          assert (L : bl_log s3 = bl_log s ++ flush_log (dropping k T) T (gu_vals g) false ++ early T v).
          { rewrite L3, L1, <- !app_assoc. reflexivity. }
          split; [exact B3|]. split; [split; [rewrite M3; exact S1|eauto]|].
          exists [], outs. split; [reflexivity|]. split; [apply no_panic_nil|]. right. left. split; [exact Nt|].
          exists (gu_vals g), v. split; [cbn; rewrite app_nil_r; reflexivity|apply ends_log; exact L].
        - apply safe_bind, safe_ret, safe_panic. destruct (Hbig eq_refl) as [Hv Hb]. rewrite Hv in *. cbn in L1. rewrite app_nil_r in L1.
          split; [exact B1|]. split; [split; [exact S1|exists []; rewrite app_nil_r; exact L1]|].
          exists [], outs. split; [reflexivity|]. split; [apply no_panic_nil|]. right. right. left. split; [exact Nt|].
          split; [destruct Hwhy; auto|]. split; [reflexivity|]. apply ends_log. rewrite app_nil_r. exact L1. }
      destruct why as [l|]; [|destruct tr; [discriminate|apply Go; auto..]].
      destruct tr; [discriminate|apply safe_abort|apply Go; auto].
  Qed.

  Lemma flush_post k tr T g used outs fr s s0 P :
    ty_okb T = true -> t_size T <> 0 -> gok (dropping k T) T fr g s -> keeps fr s0 s -> no_panic used -> stopped used outs ->
    forall pre, gu_vals g = pre ++ somes used ->
    safe (flush_guard A dbg k T g true) s
      (fun _ s' => from_iter_post (dropping k T) tr T fr pre (used ++ outs) s0 s') P.
  Proof.
    intros HT Hz Hg K Hp Hst pre Ev. eapply safe_mono; [apply (flush_ok k T g true fr s (fun _ => False) HT Hz Hg)| |intros ? []].
    intros [] s1 (B1 & S1 & L1).
    assert (En : ends s0 s1 (flush_log (dropping k T) T (pre ++ somes used) true)).
    { rewrite <- Ev. eapply ends_after; eassumption. }
    split; [exact B1|]. split; [split; [eapply same_on_trans; [apply K|exact S1]|eapply ends_keeps; exact En]|].
    exists used, outs. split; [reflexivity|]. split; [exact Hp|]. left. auto.
  Qed.

  Lemma size_hint_large lower upper c size :
    0 <= lower -> 0 <= c -> size_hint_and_one lower upper c = Some size -> c + 1 <= size.
  Proof.
    intros H1 H2. unfold size_hint_and_one, checked_add.
    set (m := Z.max lower _). assert (0 <= m) by (unfold m; lia).
    destruct (m + 1 <=? USIZE_MAX); [|discriminate]. destruct (_ <=? USIZE_MAX); [|discriminate].
    intros E; inversion E. lia.
  Qed.

  (** What is known of the hint; [ask_hint] tells which. *)
  Lemma hint_cases T (it : iter) outs :
    its_ok T (fst it) outs -> hint_okb (fst (snd it)) (snd (snd it)) = true -> heard (fst (snd it)) 0 ->
    (fst (hint it) = PANICS /\ loud (length outs) = true) \/ (fst (hint it) <> PANICS /\ 0 <= fst (hint it)).
  Proof.
    intros H Hl Hh. unfold hint. destruct it as [its last]. cbn [fst snd] in *.
    assert (X : forall lo up n, hint_okb lo up = true -> heard lo n ->
              (lo = PANICS /\ loud n = true) \/ (lo <> PANICS /\ 0 <= lo)).
    { intros lo up n Ho Hn. unfold hint_okb in Ho. apply andb_true_iff in Ho. destruct Ho as [Ho _]. apply andb_true_iff in Ho.
      destruct Ho as [Ho _]. destruct (Z.eqb_spec lo PANICS) as [E|E]; [left; split; [exact E|apply Hn; exact E]|].
      right. split; [exact E|]. apply orb_true_iff in Ho. lia. }
    destruct its as [|[h m] its'], outs as [|o outs']; try contradiction; [eapply X; eassumption|].
    destruct H as [(_ & H1 & H2) _]. eapply X; eassumption.
  Qed.

  Lemma drop_one_ok T v fr s P :
    binv fr s ->
    safe (drop_unwinding bomb T v) s
      (fun _ s' => binv fr s' /\ same_on fr (bmem s) (bmem s') /\ bl_log s' = bl_log s ++ early T v) P.
  Proof.
    intros Hi. eapply safe_mono; [apply (drop_unwinding_ok A own bomb T v fr s (fun _ => False) Hi)| |intros ? []].
    intros [] s1 (B1 & M1 & _ & _ & L1). rewrite M1. split; [exact B1|]. split; [apply same_on_refl|exact L1].
  Qed.

  (** A call of [size_hint] while the guard is alive and holds everything but [one]. *)
  Lemma guarded_hint_ok (big : Prop) tr k T one (it : iter) outs g fr s :
    ty_okb T = true -> t_size T <> 0 -> its_ok T (fst it) outs -> hint_okb (fst (snd it)) (snd (snd it)) = true ->
    heard (fst (snd it)) 0 -> gok (dropping k T) T fr g s ->
    safe (guarded A dbg k T g (on_unwind (ask_hint it) (drop_unwinding bomb T one))) s
      (fun _ s' => s' = s /\ 0 <= fst (hint it))
      (from_iter_panic (dropping k T) tr big T fr (gu_vals g ++ [one]) outs s).
  Proof.
    intros HT Hz Hits Hlast Hh Hg. unfold guarded, on_unwind, ask_hint, safe.
    destruct (hint_cases T it outs Hits Hlast Hh) as [[E Hl]|[E H0]].
    2: { destruct (Z.eqb_spec (fst (hint it)) PANICS); [contradiction|]. cbn [ret]. auto. }
    rewrite E, Z.eqb_refl. cbn [panic].
    pose proof (drop_one_ok T one (gfr g fr) s (fun _ => False) (proj1 (proj2 Hg))) as Hd. unfold safe in Hd.
    destruct (drop_unwinding bomb T one s) as [[] s1|s1| |]; [|contradiction Hd|exact I|contradiction Hd].
    destruct Hd as (B1 & S1 & L1).
    assert (K1 : keeps (gfr g fr) s s1) by (split; [exact S1|eauto]).
    assert (G1 : gok (dropping k T) T fr g s1) by (eapply gok_keeps; eassumption). apply keeps_gfr in K1.
    assert (Done : forall s2, binv fr s2 -> keeps fr s1 s2 -> bl_log s2 = bl_log s1 ++ saved (dropping k T) T (gu_vals g) ->
              from_iter_panic (dropping k T) tr big T fr (gu_vals g ++ [one]) outs s s2).
    { intros s2 B2 K2 L2. split; [exact B2|]. split; [eapply keeps_trans; eassumption|].
      exists [], outs. split; [reflexivity|]. split; [apply no_panic_nil|]. right. right. right. split; [exact Hl|]. left.
      exists (gu_vals g), one. split; [cbn; rewrite app_nil_r; reflexivity|]. apply ends_log. rewrite L2, L1, <- app_assoc. reflexivity. }
    destruct (dropping k T) eqn:Ed.
    - pose proof (flush_ok k T g false fr s1 (fun _ => False) HT Hz) as Hf. rewrite Ed in Hf. specialize (Hf G1).
      unfold safe in Hf. destruct (flush_guard A dbg k T g false s1) as [[] s2|s2| |]; [|contradiction Hf|exact I|contradiction Hf].
      destruct Hf as (B2 & S2 & L2). apply Done; [exact B2|split; [exact S2|eauto]|exact L2].
    - cbn [ret]. apply Done; [eapply gok_binv; exact G1|apply keeps_refl|]. cbn [saved]. rewrite app_nil_r. reflexivity.
  Qed.

  Definition good_iter (k : entry) (T : ty) (outs : list next_end) : Prop :=
    (dropping k T = true -> exact = true) /\ (fusedl outs = true \/ (exact = true /\ dropping k T = false)).

  Lemma from_iter_loop_ok (big : Prop) k tr T : forall fuel one (it : iter) outs g fr s,
    ty_okb T = true -> t_size T <> 0 -> its_ok T (fst it) outs -> hint_okb (fst (snd it)) (snd (snd it)) = true ->
    heard (fst (snd it)) 0 -> gok (dropping k T) T fr g s -> value_okb T one = true -> good_iter k T outs ->
    gfull (dropping k T) T g \/ (exact = true /\ dropping k T = false) ->
    (length (fst it) < fuel)%nat ->
    safe (from_iter_loop A dbg bomb fuel k tr T one it g) s
      (fun _ s' => from_iter_post (dropping k T) tr T fr (gu_vals g ++ [one]) outs s s')
      (from_iter_panic (dropping k T) tr big T fr (gu_vals g ++ [one]) outs s).
  Proof.
    induction fuel as [|fuel IH]; intros one it outs g fr s HT Hz Hits Hlast Hq Hg Hone Hgi Hfull Hfuel; [lia|].
    cbn [from_iter_loop]. apply safe_bind.
    eapply safe_mono; [apply (guarded_hint_ok big tr k T one it outs g fr s HT Hz Hits Hlast Hq Hg)| |auto].
    intros [] s0 [-> Hh].
    destruct (size_hint_and_one _ _ _) as [size|] eqn:Esz.
    2: { apply (from_iter_failed_ok big k tr T g (Some one) None outs fr s HT Hz Hg); discriminate. }
    apply size_hint_large in Esz; [|exact Hh|unfold FASTER_START; lia].
    pose proof (proj1 Hg) as Ec. destruct Hgi as [Hgi1 Hgi2].
    apply safe_bind. eapply safe_mono; [apply (fill_guard_ok k T size (Some one) it outs g fr s HT Hz Hits Hg Hone)| |].
    { unfold FASTER_START in *; lia. }
    { cbn [opt_list length]. lia. }
    { exact Hfull. }
    { exact Hgi1. }
    2: { intros s1 Hpan. apply panicked_panic. exact Hpan. }
    intros [[[g1 it1] one1] e] s1 (K1 & G1 & El & R). destruct e as [why|].
    { destruct R as (-> & -> & -> & _). rewrite <- (app_nil_l outs).
      eapply safe_mono; [apply (from_iter_failed_ok big k tr T g (Some one) why outs fr s1 HT Hz G1); discriminate| |].
      - intros [] s2 Hpost. eapply (post_after _ _ _ _ _ []); [apply no_panic_nil|exact K1|]. cbn [somes flat_map]. rewrite app_nil_r. exact Hpost.
      - intros s2 Hpan. eapply (panic_after _ _ _ _ _ _ []); [apply no_panic_nil|exact K1|]. cbn [somes flat_map]. rewrite app_nil_r. exact Hpan. }
    destruct R as (-> & used & outs1 & -> & Hp & Hi1 & Hlen1 & V1 & Hend). cbn [opt_list] in V1. rewrite app_assoc in V1.
    apply safe_bind. eapply safe_mono; [apply (guarded_ok k T it1 outs1 g1 fr s1 HT Hz Hi1 G1)| |].
    2: { intros s2 Hpan. apply panicked_panic. eapply panicked_after; [exact Hp|exact K1|]. rewrite <- V1. exact Hpan. }
    intros [r it2] s2 (G2 & K2 & El2 & outs2 & Hi2 & Ht & Hlen2 & Hv). cbn [fst snd] in *.
    destruct (took_used _ _ _ Ht) as (used2 & -> & Hp2 & Es2 & Hst2).
    assert (K02 : keeps fr s s2) by (eapply keeps_trans; eassumption).
    destruct r as [v|].
    - destruct Hv as [Hv Hlt]. rewrite app_assoc.
      assert (Hpp : no_panic (used ++ used2)) by (apply no_panic_app; assumption).
      eapply safe_mono; [apply (IH v it2 outs2 g1 fr s2 HT Hz Hi2)| |].
      + rewrite El2, El. exact Hlast.
      + rewrite El2, El. exact Hq.
      + exact G2.
      + exact Hv.
      + split; [exact Hgi1|]. destruct Hgi2 as [Hgi2|Hgi2]; [left|right; exact Hgi2].
        rewrite app_assoc in Hgi2. eapply fusedl_app. exact Hgi2.
      + destruct Hend as [Hend|Hend]; [left; exact Hend|].
        destruct Hgi2 as [Hgi2|Hgi2]; [exfalso|right; exact Hgi2].
        pose proof (fused_stopped _ _ Hgi2 Hend) as He.
        clear - Ht He Es2. destruct used2 as [|o used2]; [discriminate|]. cbn [app] in *.
        destruct Ht as (E & Hne & Eo). destruct o; cbn in He, Eo; discriminate.
      + lia.
      + intros [] s3 Hpost. eapply post_after; [exact Hpp|exact K02|].
        rewrite somes_app, Es2, app_assoc, <- V1. exact Hpost.
      + intros s3 Hpan. eapply panic_after; [exact Hpp|exact K02|].
        rewrite somes_app, Es2, app_assoc, <- V1. exact Hpan.
    - rewrite app_assoc. eapply flush_post; [exact HT|exact Hz|exact G2|exact K02|apply no_panic_app; assumption| |].
      + apply stopped_app. apply Hst2. reflexivity.
      + rewrite somes_app, Es2, app_nil_r. exact V1.
  Qed.

  Lemma from_iter_sized_ok k tr T (it : iter) outs fr s :
    ty_okb T = true -> t_size T <> 0 -> its_ok T (fst it) outs -> hint_okb (fst (snd it)) (snd (snd it)) = true ->
    heard (fst (snd it)) 0 -> good_iter k T outs -> binv fr s ->
    safe (from_iter_sized A dbg bomb k tr T it) s
      (fun _ s' => from_iter_post (dropping k T) tr T fr [] outs s s')
      (from_iter_panic (dropping k T) tr (lay_for (dropping k T) T (Z.max (fst (hint it)) FASTER_START) = None) T fr [] outs s).
  Proof.
    set (big := lay_for _ _ _ = None).
    intros HT Hz Hits Hlast Hq Hgi Hi. unfold from_iter_sized.
    set (g := mkGu None 0 0 _ []). assert (Hg : gok (dropping k T) T fr g s).
    { split; [reflexivity|]. split; [exact Hi|reflexivity]. }
    apply safe_bind.
    apply (safe_mono _ _ (fun _ s' => s' = s /\ 0 <= fst (hint it)) _
             (from_iter_panic (dropping k T) tr big T fr [] outs s)); [| |auto].
    { unfold guarded, on_unwind, ask_hint, safe. destruct (hint_cases T it outs Hits Hlast Hq) as [[E Hl]|[E H0]].
      2: { destruct (Z.eqb_spec (fst (hint it)) PANICS); [contradiction|]. cbn [ret]. auto. }
      rewrite E, Z.eqb_refl. cbn [panic].
      assert (Done : from_iter_panic (dropping k T) tr big T fr [] outs s s).
      { split; [exact Hi|]. split; [apply keeps_refl|]. exists [], outs. split; [reflexivity|]. split; [apply no_panic_nil|].
        right. right. right. split; [exact Hl|]. right. split; [reflexivity|]. apply ends_log. rewrite app_nil_r. reflexivity. }
      destruct (dropping k T); exact Done. }
    intros [] s0 [-> Hh]. apply safe_bind.
    apply (safe_mono _ _ (fun r s' => let '(g', it', one', e) := r in
         keeps fr s s' /\ gok (dropping k T) T fr g' s' /\ snd it' = snd it /\
         match e with
         | Some why => g' = g /\ it' = it /\ (why = None -> big)
         | None =>
             exists used outs', outs = used ++ outs' /\ no_panic used /\ its_ok T (fst it') outs' /\
               (length (fst it') <= length (fst it))%nat /\ gu_vals g' = somes used /\
               (gfull (dropping k T) T g' \/ stopped used outs')
         end) _ (panicked (dropping k T) T fr [] outs s) _).
    { destruct (fst (hint it) =? 0).
      - apply safe_ret. split; [apply keeps_refl|]. split; [exact Hg|]. split; [reflexivity|].
        exists [], outs. split; [reflexivity|]. split; [apply no_panic_nil|]. split; [exact Hits|]. split; [lia|]. split; [reflexivity|].
        left. exact I.
      - eapply safe_mono; [apply (fill_guard_ok k T _ None it outs g fr s HT Hz Hits Hg I)| |].
        + unfold FASTER_START; lia.
        + cbn [g gu_count opt_list length]. unfold FASTER_START; lia.
        + left. exact I.
        + exact (proj1 Hgi).
        + intros [[[g1 it1] one1] e] s1 (K1 & G1 & El & R). split; [exact K1|]. split; [exact G1|]. split; [exact El|].
          destruct e as [why|]; [destruct R as (-> & _ & -> & R); auto|].
          destruct R as (_ & used & outs1 & R1 & R2 & R3 & R4 & R5 & R6). exists used, outs1. cbn [g gu_vals opt_list app] in R5.
          split; [exact R1|]. split; [exact R2|]. split; [exact R3|]. split; [exact R4|]. split; [exact R5|exact R6].
        + intros s1 H. exact H. }
    2: { intros s1 Hpan. apply panicked_panic. exact Hpan. }
    intros [[[g1 it1] one1] e] s1 (K1 & G1 & El & R). destruct e as [why|].
    { destruct R as (-> & -> & Hw). rewrite <- (app_nil_l outs).
      eapply safe_mono; [apply (from_iter_failed_ok big k tr T g None why outs fr s1 HT Hz G1); auto| |].
      - intros [] s2 Hpost. eapply (post_after _ _ _ _ _ []); [apply no_panic_nil|exact K1|]. exact Hpost.
      - intros s2 Hpan. eapply (panic_after _ _ _ _ _ _ []); [apply no_panic_nil|exact K1|]. exact Hpan. }
    destruct R as (used & outs1 & -> & Hp & Hi1 & Hlen1 & V1 & Hend). destruct Hgi as [Hgi1 Hgi2].
    apply safe_bind. eapply safe_mono; [apply (guarded_ok k T it1 outs1 g1 fr s1 HT Hz Hi1 G1)| |].
    2: { intros s2 Hpan. apply panicked_panic. eapply panicked_after; [exact Hp|exact K1|]. cbn [app]. rewrite <- V1. exact Hpan. }
    intros [r it2] s2 (G2 & K2 & El2 & outs2 & Hi2 & Ht & Hlen2 & Hv). cbn [fst snd] in *.
    destruct (took_used _ _ _ Ht) as (used2 & -> & Hp2 & Es2 & Hst2).
    assert (K02 : keeps fr s s2) by (eapply keeps_trans; eassumption).
    destruct r as [v|].
    - destruct Hv as [Hv Hlt]. rewrite app_assoc.
      assert (Hpp : no_panic (used ++ used2)) by (apply no_panic_app; assumption).
      eapply safe_mono; [apply (from_iter_loop_ok big k tr T (S (length (fst it))) v it2 outs2 g1 fr s2 HT Hz Hi2)| |].
      + rewrite El2, El. exact Hlast.
      + rewrite El2, El. exact Hq.
      + exact G2.
      + exact Hv.
      + split; [exact Hgi1|]. destruct Hgi2 as [Hgi2|Hgi2]; [left|right; exact Hgi2].
        rewrite app_assoc in Hgi2. eapply fusedl_app. exact Hgi2.
      + destruct Hend as [Hend|Hend]; [left; exact Hend|].
        destruct Hgi2 as [Hgi2|Hgi2]; [exfalso|right; exact Hgi2].
        pose proof (fused_stopped _ _ Hgi2 Hend) as He.
        clear - Ht He Es2. destruct used2 as [|o used2]; [discriminate|]. cbn [app] in *.
        destruct Ht as (E & Hne & Eo). destruct o; cbn in He, Eo; discriminate.
      + lia.
      + intros [] s3 Hpost. eapply post_after; [exact Hpp|exact K02|].
        cbn [app]. rewrite somes_app, Es2, <- V1. exact Hpost.
      + intros s3 Hpan. eapply panic_after; [exact Hpp|exact K02|].
        cbn [app]. rewrite somes_app, Es2, <- V1. exact Hpan.
    - rewrite app_assoc. eapply flush_post; [exact HT|exact Hz|exact G2|exact K02|apply no_panic_app; assumption| |].
      + apply stopped_app. apply Hst2. reflexivity.
      + cbn [app]. rewrite somes_app, Es2, app_nil_r. exact V1.
  Qed.
End Iter.
