(** A vector that grows on a proxy, as in the examples of src/sync.rs 196-216 and
    src/global/sync.rs 311-339: "Proxy will allocate enough memory to grow vec without
    reallocating on 2nd iteration and later". *)
From Coq Require Import Permutation.
From Verif Require Import Base BaseFacts Alloc AllocFacts Arena ArenaFacts ArenaInv ArenaOps BlinkAlloc BlinkFacts
  History HistoryFacts Setup SetupFacts Frame Proxy ProxyFacts ProxyProps ProxyWarm PaperFacts.

(** ** What is claimed *)

(** An operation on something else than proxy [k]. *)
Definition leaves_alone (k : nat) (o : pop) : bool :=
  match o with
  | PDrop j | PReset j | PUse (Some j) _ => negb (j =? k)%nat
  | _ => true
  end.

(** Of the operations [os], those on proxy [k] are the ones of a vector: a first allocation
    ([Vec] makes none of size 0), [grow] from the size it holds to a size of [N] at most, and
    writes into the buffer.  All have alignment [a].  The other operations are arbitrary. *)
Fixpoint vector_ops (k : nat) (a N : Z) (held : option Z) (os : list pop) : Prop :=
  match os with
  | [] => True
  | o :: os' =>
      if leaves_alone k o then vector_ops k a N held os'
      else match o, held with
           | PUse _ (OpAlloc l _), None =>
               l_align l = a /\ 1 <= l_size l <= N /\ vector_ops k a N (Some (l_size l)) os'
           | PUse _ (OpResize O old new), Some n =>
               old = mkLayout n a /\ l_align new = a /\ n <= l_size new <= N /\ vector_ops k a N (Some (l_size new)) os'
           | PUse _ (OpWrite _ _ _), _ => vector_ops k a N held os'
           | _, _ => False
           end
  end.

(** The vector is always at address [p]: no request fails, and none moves it. *)
Fixpoint stays_at (k : nat) (p : Z) (os : list pop) (rs : list pres) : Prop :=
  match os, rs with
  | o :: os', r :: rs' =>
      (if leaves_alone k o then True
       else match o with
            | PUse _ (OpAlloc l _) | PUse _ (OpResize _ _ l) => r = PBlock (Some (mkBlock p (l_size l)))
            | _ => True
            end) /\ stays_at k p os' rs'
  | _, _ => True
  end.

(** There never is a vector: the first request was turned down. *)
Fixpoint turned_down (k : nat) (os : list pop) (rs : list pres) : Prop :=
  match os, rs with
  | o :: os', r :: rs' => (if leaves_alone k o then True else r = PBlock None) /\ turned_down k os' rs'
  | _, _ => True
  end.

(** ** Proofs *)

Section Shapes.
  Context {W : Type} (amax smax psmax nmax : Z) (A : Allocator W) (own : W -> list ublock -> Prop).
  Hypothesis Hct : contract amax smax A own.
  Hypothesis Hamax : 0 <= amax <= USIZE_MAX.
  Variable dbg : bool.
  Notation top := (Z.max amax nmax).
  Hypothesis Htop : top <= USIZE_MAX.
  Hypothesis Hcfg : cfg_lax dbg amax psmax top smax.
  Variables a N M : Z.
  Hypothesis HN : req_ok psmax (mkLayout N a).

  Lemma HNa n : 0 <= n <= N -> req_ok psmax (mkLayout n a).
  Proof. intros Hn. unfold req_ok, req_okb in *. cbn [l_size l_align] in *. rewrite !andb_true_iff in *. lia. Qed.
  Lemma a_pos : 0 < a.
  Proof. destruct (req_ok_facts _ _ HN) as (k & _ & _ & H & _). exact H. Qed.

  (** The newest chunk begins with the vector, which ends at the cursor; if the minimum
      covers the largest size, it is the only chunk and has room for that size. *)
  Definition vshape (held : option Z) (tab : list (option ublock)) (cs : list chunk) : Prop :=
    match tab with
    | [] => cs = []
    | [Some u] => exists c r n, cs = c :: r /\ u = mkU (round_up (c_base c) a) n (mkLayout n a) /\ 0 <= n /\
        c_cur c = u_ptr u + n /\ held <> None /\ (N <= M -> held = Some n /\ r = [] /\ u_ptr u + N <= c_end c)
    | _ => False
    end.
  Definition vstate (held : option Z) (p : proxy) (m : mem) : Prop :=
    ar_min (px_arena p) = M /\ exists cs, shadow cs (px_arena p) m /\ vshape held (px_tab p) cs.

  Lemma vstate_at held p m cs : vstate held p m -> shadow cs (px_arena p) m -> vshape held (px_tab p) cs.
  Proof.
    intros (_ & cs0 & S0 & V) S1. unfold vshape in *. destruct (px_tab p) as [|[u|] [|u' t]]; auto.
    - subst cs0. destruct S0 as (_ & D & _), S1 as (_ & D' & _). destruct cs; [reflexivity|cbn in *; congruence].
    - destruct V as (c & r & n & -> & Eu & Hn & Ec & Hh & V). destruct (shadow_head amax nmax _ _ _ _ _ S0 S1) as (c' & r' & -> & L & P1 & P2 & P3).
      exists c', r', n. unfold c_base in *. rewrite P1, P2, P3. repeat (split; [assumption || reflexivity|]).
      intros HM. destruct (V HM) as (V1 & -> & V3). repeat split; auto. destruct r'; [reflexivity|discriminate].
  Qed.

  Definition addr (tab : list (option ublock)) : Z := match tab with Some u :: _ => u_ptr u | _ => 0 end.

  (** What an operation answers, [tab] before and [tab'] after. *)
  Definition answered (o : op) (tab tab' : list (option ublock)) (r : option block) : Prop :=
    match o with
    | OpAlloc l _ => (tab' = [] /\ r = None) \/ (tab' <> [] /\ r = Some (mkBlock (addr tab') (l_size l)))
    | OpResize _ _ l => (tab = [] /\ tab' = [] /\ r = None) \/ (tab <> [] /\ tab' <> [] /\ addr tab' = addr tab /\ r = Some (mkBlock (addr tab) (l_size l)))
    | _ => r = None /\ tab' = tab
    end.

  Section Call.
    Variable own' : W -> list ublock -> Prop.
    Hypothesis Hct' : contract amax smax A own'.

    Lemma vec_alloc ar w l r aw' : arep amax A own' [] [] ar w [] -> ar_min ar = M -> M <= top ->
      l_align l = a -> 1 <= l_size l <= N -> blink_allocate A dbg l (ar, w) = ORet r aw' ->
      exists cs', ar_min (fst aw') = M /\
        match r with
        | None => cs' = [] /\ arep amax A own' [] cs' (fst aw') (snd aw') []
        | Some b => arep amax A own' [] cs' (fst aw') (snd aw') [mku b l] /\ b_len b = l_size l /\
            vshape (Some (l_size l)) [Some (mku b l)] cs'
        end.
    Proof.
      intros R Hm Htp Ea Hs E. assert (Hl : req_ok psmax l) by (destruct l as [n al]; cbn in *; subst al; apply HNa; lia).
      assert (Hlax : cfg_lax dbg amax psmax M smax) by (apply (cfg_of amax smax psmax nmax dbg Hcfg); lia).
      assert (Hc : cfg_for dbg amax psmax (ar_min ar) smax (ar_root ar) l) by (rewrite Hm; apply (cfg_lax_for Hlax); intros _; right; left; lia).
      pose proof (blink_allocate_ok amax psmax smax A own' Hct' Hamax dbg [] [] ar w [] l R Hl Hc) as H.
      unfold wp in H. rewrite E in H. destruct H as (_ & Mm & H). cbn [fits_root] in H. destruct r as [b|].
      - destruct H as (_ & El & c & [Hq _] & Ec & Eb & R'). exists [c]. split; [congruence|]. split; [exact R'|]. split; [exact El|].
        cbn [vshape]. exists c, [], (l_size l). split; [reflexivity|]. split; [unfold mku; rewrite Eb, El, Ea; destruct l; cbn in *; subst; reflexivity|].
        split; [lia|]. split; [unfold mku; cbn [u_ptr]; exact Ec|]. split; [discriminate|]. intros HM. split; [reflexivity|]. split; [reflexivity|].
        pose proof (proj1 (ar_min_ok _ _ _ _ _ _ _ _ R)) as Hm0. rewrite Hm in *.
        destruct (slow_req_spec [] M l psmax smax _ dbg amax Hm0 ltac:(cbn; lia) ltac:(cbn; lia) Hl Hlax Hq) as (_ & _ & _ & _ & Hraw).
        destruct (arep_chunk_ok _ _ _ _ Hct' _ _ _ _ _ c R' (or_introl eq_refl)) as (_ & ((_ & _ & G & _) & _) & _ & P8 & _).
        unfold ublk in G. cbn [b_len] in G. unfold mku; cbn [u_ptr]. rewrite Eb, Ea. unfold chunk_raw in Hraw. cbn [cum_of] in Hraw.
        assert (B : round_up (c_base c) a <= c_base c + (if HDR_ALIGN <? l_align l then l_align l else 0)).
        { rewrite Ea. destruct (Z.ltb_spec HDR_ALIGN a) as [|L8]; [pose proof (round_up_spec (c_base c) a a_pos); lia|].
          rewrite round_up_id; [lia|exact a_pos|]. unfold c_base, HDR, HDR_ALIGN in *.
          destruct (req_ok_facts _ _ HN) as (k & Hk & Ek & _). cbn [l_align] in Ek.
          assert (Hd : (a | 8)). { assert (k <= 3) by (destruct (Z_le_gt_dec k 3); [assumption|]; pose proof (Z.pow_le_mono_r 2 4 k ltac:(lia) ltac:(lia)); lia).
            rewrite Ek. change 8 with (2 ^ 3). exists (2 ^ (3 - k)). rewrite <- Z.pow_add_r by lia. f_equal. lia. }
          apply Z.mod_divide; [pose proof a_pos; lia|]. apply Z.divide_add_r; [|apply (Z.divide_trans _ 8); [exact Hd|exists 4; reflexivity]].
          apply (Z.divide_trans _ 8); [exact Hd|]. apply Z.mod_divide; [lia|exact P8]. }
        unfold c_end, c_base, c_ptr, HDR in *. lia.
      - destruct H as [_ R']. exists []. split; [congruence|]. split; [reflexivity|exact R'].
    Qed.

    Lemma vec_resize cs ar w u held old new r aw' : arep amax A own' [] cs ar w [u] -> ar_min ar = M -> M <= top ->
      vshape held [Some u] cs -> fits old u -> l_align new = a -> l_size old <= l_size new <= N ->
      blink_resize A dbg (u_ptr u) old new (ar, w) = ORet r aw' ->
      exists cs', ar_min (fst aw') = M /\
        match r with
        | None => arep amax A own' [] cs' (fst aw') (snd aw') [u] /\ ~ N <= M /\ vshape (Some (l_size new)) [Some u] cs'
        | Some b => arep amax A own' [] cs' (fst aw') (snd aw') [mku b new] /\ b_len b = l_size new /\
            vshape (Some (l_size new)) [Some (mku b new)] cs' /\ (N <= M -> b_ptr b = u_ptr u)
        end.
    Proof.
      intros R Hm Htp V Hf Ea Hs E. pose proof Hf as [F1 F2]. cbn [vshape] in V. destruct V as (c & rr & n & -> & Eu & Hn & Ec & Hh & V).
      rewrite Eu in F1, F2. cbn [u_layout l_align l_size u_len] in F1, F2.
      assert (Hl : req_ok psmax new) by (destruct new as [nn al]; cbn in *; subst al; apply HNa; lia).
      assert (Hlax : cfg_lax dbg amax psmax M smax) by (apply (cfg_of amax smax psmax nmax dbg Hcfg); lia).
      assert (Hc : cfg_for dbg amax psmax (ar_min ar) smax (ar_root ar) new).
      { rewrite Hm. apply (cfg_lax_for Hlax). intros _. right; right; right. rewrite (ar_head _ _ _ _ _ _ _ _ R). discriminate. }
      pose proof (blink_resize_way amax psmax smax A own' Hct' Hamax dbg [] (c :: rr) ar w u [] old new R Hf Hl Hc) as H.
      unfold wp in H. rewrite E in H. destruct H as (Mm & c0 & cs0 & E0 & H). injection E0 as <- <-. unfold way in H.
      rewrite Ea, F1, Z.leb_refl in H. cbn [andb] in H.
      assert (Eo : l_size old = n) by lia. rewrite Eo in *.
      destruct (Z.leb_spec (l_size new) n) as [Ln|Ln].
      - destruct H as (-> & _ & R'). exists (set_cur c (c_cur c) :: rr). split; [congruence|]. cbn [mku b_len b_ptr] in *. assert (En : n = l_size new) by lia.
        split; [exact R'|]. split; [exact En|]. split; [|reflexivity]. cbn [vshape].
        exists (set_cur c (c_cur c)), rr, n. split; [reflexivity|]. split.
        { unfold mku. cbn [b_ptr b_len]. rewrite Eu. cbn [u_ptr]. destruct new; cbn in *; subst; reflexivity. }
        split; [lia|]. split; [cbn; exact Ec|]. split; [discriminate|]. intros HM. destruct (V HM) as (_ & V2 & V3). split; [congruence|]. split; [exact V2|exact V3].
      - rewrite Ec, Z.eqb_refl in H. destruct (Z.leb_spec (u_ptr u + l_size new) (c_end c)) as [Le|Le].
        + destruct H as (-> & _ & R'). exists (set_cur c (u_ptr u + l_size new) :: rr). split; [congruence|]. split; [exact R'|]. split; [reflexivity|]. split; [|reflexivity].
          cbn [vshape]. exists (set_cur c (u_ptr u + l_size new)), rr, (l_size new). split; [reflexivity|]. split.
          { unfold mku. cbn [b_ptr b_len]. rewrite Eu. cbn [u_ptr]. destruct new; cbn in *; subst; reflexivity. }
          split; [lia|]. split; [reflexivity|]. split; [discriminate|]. intros HM. destruct (V HM) as (_ & V2 & V3). split; [reflexivity|]. split; [exact V2|exact V3].
        + assert (HM : ~ N <= M) by (intros HM; destruct (V HM) as (_ & _ & V3); lia).
          destruct H as [_ H]. destruct r as [b|].
          * destruct H as (_ & El & c1 & _ & Ec1 & Eb & R'). exists (c1 :: c :: rr). split; [congruence|]. split; [exact R'|]. split; [exact El|].
            split; [|intros; contradiction]. cbn [vshape]. exists c1, (c :: rr), (l_size new). split; [reflexivity|]. split.
            { unfold mku. rewrite Eb, El. destruct new; cbn in *; subst; reflexivity. }
            split; [lia|]. split; [exact Ec1|]. split; [discriminate|]. intros; contradiction.
          * destruct H as [_ R']. exists (c :: rr). split; [congruence|]. split; [exact R'|]. split; [exact HM|].
            cbn [vshape]. exists c, rr, n. split; [reflexivity|]. split; [exact Eu|]. split; [lia|]. split; [exact Ec|]. split; [discriminate|]. intros; contradiction.
    Qed.

    (** One operation of the vector. *)
    Definition vec_op (held : option Z) (o : op) (held' : option Z) : Prop :=
      match o, held with
      | OpAlloc l _, None => l_align l = a /\ 1 <= l_size l <= N /\ held' = Some (l_size l)
      | OpResize O old new, Some n => old = mkLayout n a /\ l_align new = a /\ n <= l_size new <= N /\ held' = Some (l_size new)
      | OpWrite _ _ _, _ => held' = held
      | _, _ => False
      end.

    Lemma vec_step o held held' cs t ar w r c' : arep amax A own' [] cs ar w (live t) -> ar_min ar = M -> M <= top ->
      vshape held t cs -> vec_op held o held' ->
      step psmax (blink A dbg) (fun _ => blink_reset A) o (mkCst t (ar, w)) = ORet r c' ->
      exists cs', arep amax A own' [] cs' (fst (c_w c')) (snd (c_w c')) (live (c_tab c')) /\ ar_min (fst (c_w c')) = M /\
        vshape held' (c_tab c') cs' /\ (N <= M -> answered o t (c_tab c') r).
    Proof.
      intros R Hm Htp V Ho.
      match goal with |- ?X = _ -> _ => change X with (step_at psmax (blink A dbg) (fun _ => blink_reset A) o t (mkCst t (ar, w))) end.
      unfold step_at, skip. destruct o as [l z|h off bs|h l|h old new|h old new|keep]; cbn [vec_op] in Ho; try (destruct held; contradiction).
      - destruct held as [n|]; [contradiction|]. destruct Ho as (Ea & Hs & ->).
        assert (Hl : req_okb psmax l = true) by (destruct l as [n al]; cbn in *; subst al; apply HNa; lia). rewrite Hl.
        assert (t = [] /\ cs = []) as [-> ->].
        { unfold vshape in V. destruct t as [|[u|] [|u' t]]; auto; try contradiction. destruct V as (c & rr & n & _ & _ & _ & _ & Hh & _). contradiction. }
        unfold call. cbn [c_w c_tab live] in *.
        destruct ((if z then al_allocate_zeroed (blink A dbg) l else al_allocate (blink A dbg) l) (ar, w)) as [r1 aw1| | |] eqn:E1; try discriminate.
        intros E; injection E as <- <-. cbn [c_w c_tab].
        assert (Hx : exists cs', ar_min (fst aw1) = M /\
          match r1 with
          | None => cs' = [] /\ arep amax A own' [] cs' (fst aw1) (snd aw1) []
          | Some b => arep amax A own' [] cs' (fst aw1) (snd aw1) [mku b l] /\ b_len b = l_size l /\ vshape (Some (l_size l)) [Some (mku b l)] cs'
          end).
        { destruct z; [|apply (vec_alloc ar w l r1 aw1 R Hm Htp Ea Hs E1)].
          unfold al_allocate_zeroed, bind in E1. cbn [blink al_allocate] in E1.
          destruct (blink_allocate A dbg l (ar, w)) as [r2 [ar2 w2]| | |] eqn:E2; try discriminate.
          destruct (vec_alloc ar w l r2 (ar2, w2) R Hm Htp Ea Hs E2) as (cs' & Hmn & H). cbn [fst snd] in *. destruct r2 as [b|].
          - unfold mfill in E1. cbn [blink al_set_mem al_mem ret] in E1. injection E1 as <- <-. cbn [fst snd]. exists cs'. split; [exact Hmn|].
            destruct H as (R2 & El & V2). split; [|split; [exact El|exact V2]].
            apply (arep_own_write amax smax A own' Hct' cs' ar2 w2 [] [] (mku b l)); [exact R2|].
            intros x Hxx. apply fill_other. unfold in_u, mku in Hxx. cbn in Hxx. lia.
          - cbn [ret] in E1. injection E1 as <- <-. exists cs'. split; [exact Hmn|exact H]. }
        destruct Hx as (cs' & Hmn & Hx). exists cs'. destruct r1 as [b|]; cbn [on_ok app live].
        + destruct Hx as (R2 & El & V2). split; [exact R2|]. split; [exact Hmn|]. split; [exact V2|]. intros _. cbn [answered addr u_ptr]. right. split; [discriminate|].
          destruct b as [bp bl]; cbn in *; subst; reflexivity.
        + destruct Hx as (-> & R2). split; [exact R2|]. split; [exact Hmn|]. split; [reflexivity|]. intros _. left. split; reflexivity.
      - subst held'. destruct (get h t) as [u|] eqn:G; [|intros E; injection E as <- <-; exists cs; split; [exact R|]; split; [exact Hm|]; split; [exact V|split; reflexivity]].
        destruct ((0 <=? off) && (off + Z.of_nat (length bs) <=? u_len u)) eqn:Eo; [|intros E; injection E as <- <-; exists cs; split; [exact R|]; split; [exact Hm|]; split; [exact V|split; reflexivity]].
        apply andb_true_iff in Eo. destruct Eo as [Eo1 Eo2]. intros E; injection E as <- <-. cbn [c_w c_tab blink al_set_mem al_mem fst snd].
        exists cs. split; [|split; [exact Hm|]; split; [exact V|split; reflexivity]].
        destruct (get_split h t u G) as (t1 & t2 & -> & _). pose proof (arep_perm _ _ _ _ _ _ _ _ _ (live_perm_mid t1 t2 u) R) as R1.
        apply (arep_perm _ _ _ _ _ _ _ _ _ (Permutation_sym (live_perm_mid t1 t2 u))).
        apply (arep_own_write amax smax A own' Hct' cs ar w _ [] u); [exact R1|].
        intros x Hx. unfold write_cells. unfold in_u in Hx.
        destruct (Z.leb_spec (u_ptr u + off) x); destruct (Z.ltb_spec x (u_ptr u + off + Z.of_nat (length bs))); cbn [andb]; try reflexivity. lia.
      - destruct h as [|h]; [|destruct held; contradiction]. destruct held as [n|]; [|contradiction]. destruct Ho as (-> & Ea & Hs & ->).
        assert (Hl : 0 <= n -> req_okb psmax new = true) by (intros Hn; destruct new as [nn al]; cbn in *; subst al; apply HNa; lia).
        unfold vshape in V. destruct t as [|[u|] [|u' t]]; try contradiction.
        + subst cs. cbn [get nth_error]. intros E; injection E as <- <-. exists []. cbn [c_w c_tab fst snd]. split; [exact R|]. split; [exact Hm|]. split; [reflexivity|]. intros _. left. auto.
        + assert (V0 : vshape (Some n) [Some u] cs) by exact V. destruct V as (c & rr & n0 & -> & Eu & Hn & Ec & _ & V). cbn [get nth_error].
          destruct (fitsb (mkLayout n a) u && req_okb psmax new) eqn:Ef.
          * apply andb_true_iff in Ef. destruct Ef as [Ef _]. apply fitsb_spec in Ef. unfold call. cbn [c_w c_tab blink al_grow al_shrink live] in *.
            replace (l_size (mkLayout n a) <=? l_size new) with true by (cbn [l_size]; lia).
            destruct (blink_resize A dbg (u_ptr u) (mkLayout n a) new (ar, w)) as [r1 aw1| | |] eqn:E1; try discriminate. intros E; injection E as <- <-. cbn [c_w c_tab].
            destruct (vec_resize (c :: rr) ar w u (Some n) (mkLayout n a) new r1 aw1 R Hm Htp V0 Ef Ea ltac:(cbn [l_size]; lia) E1) as (cs' & Hmn & H). exists cs'.
            destruct r1 as [b|]; cbn [on_ok set_nth live].
            -- destruct H as (R2 & Elb & V2 & Hp). split; [exact R2|]. split; [exact Hmn|]. split; [exact V2|]. intros HM. right. cbn [addr u_ptr].
               split; [discriminate|]. split; [discriminate|]. split; [apply Hp; exact HM|]. rewrite <- (Hp HM). destruct b as [bp bl]; cbn in *; subst; reflexivity.
            -- destruct H as (R2 & HM & V2). split; [exact R2|]. split; [exact Hmn|]. split; [exact V2|]. intros; contradiction.
          * assert (HM : ~ N <= M).
            { intros HM. destruct (V HM) as (Eh & _ & _). injection Eh as ->. rewrite Hl in Ef by lia. rewrite andb_true_r in Ef.
              assert (fitsb (mkLayout n0 a) u = true) as X; [|rewrite X in Ef; discriminate].
              apply fitsb_spec. rewrite Eu. split; cbn; lia. }
            intros E; injection E as <- <-. exists (c :: rr). cbn [c_w c_tab fst snd]. split; [exact R|]. split; [exact Hm|]. split; [|intros; contradiction].
            cbn [vshape]. exists c, rr, n0. repeat (split; [assumption || reflexivity || discriminate|]). intros; contradiction.
    Qed.
  End Call.

  Notation pinv := (pinv amax nmax A own).
  Variable reset : bool -> Base.M W unit.
  Hypothesis Hreset : forall k w us, own w us -> wp (reset k) w (fun _ w' => own w' []).
  Notation pstep := (pstep A dbg reset smax psmax nmax).

  Lemma vstate_untouched held p m m' : untouched amax nmax p m m' -> vstate held p m -> vstate held p m'.
  Proof.
    intros (cs & us & L & S) V. pose proof (vstate_at _ _ _ _ V (lrep_shadow _ _ _ _ _ _ L)) as T. split; [apply V|]. exists cs. split; [|exact T].
    apply (lrep_shadow amax nmax _ _ _ us). apply (lrep_same _ _ _ _ m); assumption.
  Qed.

  (** The operations on anything else. *)
  Lemma others_untouched o s b r s' k p : pinv s b -> pstep o s = ORet r s' -> get k (ps_prox s) = Some p -> leaves_alone k o = true ->
    get k (ps_prox s') = Some p /\ untouched amax nmax p (al_mem A (ps_w s)) (al_mem A (ps_w s')).
  Proof.
    intros H E G Hl.
    match goal with E : ?X = _ |- _ => change X with (pstep_at A dbg reset smax psmax nmax o (ps_prox s) s) in E end. unfold pstep_at in E.
    assert (Hstay : forall m', m' = al_mem A (ps_w s) -> untouched amax nmax p (al_mem A (ps_w s)) m').
    { intros m' ->. destruct H as [_ _ (P & leak & _ & Ea)]. destruct (each_sub amax nmax _ _ _ _ k p Ea G) as (cs & L & _).
      exists cs. eexists. split; [exact L|apply same_on_refl]. }
    assert (Hsk : forall s0, s0 = s -> get k (ps_prox s0) = Some p /\ untouched amax nmax p (al_mem A (ps_w s)) (al_mem A (ps_w s0))).
    { intros s0 ->. split; [exact G|apply Hstay; reflexivity]. }
    destruct o as [|j|j|n|[j|] o]; cbn [leaves_alone] in Hl; try (apply negb_true_iff, Nat.eqb_neq in Hl).
    - unfold caught, p_local in E. injection E as _ <-. cbn [ps_prox ps_w]. split; [|apply Hstay; reflexivity].
      assert (Hk : (k < length (ps_prox s))%nat) by (unfold get in G; apply nth_error_Some; destruct (nth_error (ps_prox s) k); [discriminate|discriminate]).
      unfold get. rewrite nth_error_app1 by exact Hk. exact G.
    - destruct (alive j (ps_prox s)) eqn:Al; [|injection E as _ <-; apply Hsk; reflexivity].
      unfold alive in Al. destruct (get j (ps_prox s)) as [q|] eqn:Gj; [|discriminate].
      pose proof (finish_shape amax smax nmax A own Hct Htop false s b j q H Gj) as Hf. apply wp_inv in Hf.
      destruct Hf as (u & s1 & Ef & l1 & l2 & q' & L1 & E1 & E2 & Hroot & Hoth & _).
      assert (Ed : p_drop A dbg j s = ORet tt (mkPst (ps_max s1) (l1 ++ None :: l2) (ps_tab s1) (ps_w s1))).
      { unfold p_drop, bind in *. destruct (on_proxy j (call (last_chunk_size A) (fun _ t => t)) s) as [n s0| | |]; try discriminate Ef.
        unfold p_update in *.
        destruct (on_proxy j (call (arena_reset_leak A false) (fun _ => map (fun _ => None)))
          (mkPst (Z.max (ps_max s0) n) (ps_prox s0) (ps_tab s0) (ps_w s0))) as [u' s2| | |]; try discriminate Ef.
        injection Ef as -> ->. unfold on_proxy. rewrite E2, <- L1, get_mid. unfold call. cbn [c_w c_tab fst snd].
        rewrite (Hroot eq_refl). unfold debug_assert. rewrite andb_false_r. cbn [ret fst snd].
        unfold put. cbn [ps_max ps_prox ps_tab ps_w fst snd c_w c_tab]. rewrite E2, !set_nth_split. reflexivity. }
      unfold caught in E. rewrite Ed in E. injection E as _ <-. cbn [ps_prox ps_w].
      rewrite (get_other amax nmax l1 l2 None (Some q)) by congruence. rewrite <- E1. split; [exact G|]. apply (Hoth k p (not_eq_sym Hl) G).
    - destruct (alive j (ps_prox s)) eqn:Al; [|injection E as _ <-; apply Hsk; reflexivity].
      unfold alive in Al. destruct (get j (ps_prox s)) as [q|] eqn:Gj; [|discriminate].
      pose proof (finish_shape amax smax nmax A own Hct Htop true s b j q H Gj) as Hf. apply wp_inv in Hf.
      destruct Hf as (u & s1 & Ef & l1 & l2 & q' & L1 & E1 & E2 & _ & Hoth & _).
      unfold caught, p_reset in E. rewrite Ef in E. injection E as _ <-. rewrite E2.
      rewrite (get_other amax nmax l1 l2 (Some q') (Some q)) by congruence. rewrite <- E1. split; [exact G|]. apply (Hoth k p (not_eq_sym Hl) G).
    - destruct ((0 <=? n) && (n <=? nmax)); [|injection E as _ <-; apply Hsk; reflexivity].
      unfold caught, p_update in E. injection E as _ <-. cbn [ps_prox ps_w]. split; [exact G|apply Hstay; reflexivity].
    - destruct (alive j (ps_prox s)) eqn:Al; [|injection E as _ <-; apply Hsk; reflexivity].
      unfold alive in Al. destruct (get j (ps_prox s)) as [q|] eqn:Gj; [|discriminate].
      pose proof (use_shape amax smax psmax nmax A own Hct Hamax dbg Htop Hcfg o s b j q H Gj) as U. unfold caught in E.
      assert (Hgo : exists l1 l2 q', length l1 = j /\ ps_prox s = l1 ++ Some q :: l2 /\ ps_prox s' = l1 ++ Some q' :: l2 /\
         forall k p, k <> j -> get k (ps_prox s) = Some p -> untouched amax nmax p (al_mem A (ps_w s)) (al_mem A (ps_w s'))).
      { destruct (on_proxy j (step psmax (blink A dbg) (fun _ => blink_reset A) o) s) as [r1 s1|s1| |]; try discriminate E; injection E as _ <-;
          destruct U as (l1 & l2 & q' & U1 & U2 & U3 & U4 & _); exists l1, l2, q'; auto. }
      destruct Hgo as (l1 & l2 & q' & L1 & E1 & E2 & Hoth). rewrite E2.
      rewrite (get_other amax nmax l1 l2 (Some q') (Some q)) by congruence. rewrite <- E1. split; [exact G|]. apply (Hoth k p (not_eq_sym Hl) G).
    - destruct (match o with OpReset _ => forallb is_none (ps_prox s) | _ => true end) eqn:En; [|injection E as _ <-; apply Hsk; reflexivity].
      unfold caught in E. destruct (on_shared (step smax A reset o) s) as [r1 s1|s1| |] eqn:Es; try discriminate E.
      + injection E as _ <-. destruct (shared_shape amax smax nmax A own Hct reset o s b r1 s1 H ltac:(intros k0 ->; exact En) Es) as [Ep Hk].
        rewrite Ep. split; [exact G|]. apply (Hk k p G).
      + exfalso. pose proof (use_shared_ok amax smax nmax A own Hct reset Hreset o s b H ltac:(intros k0 ->; exact En)) as Hw. unfold wp in Hw. rewrite Es in Hw. exact Hw.
  Qed.

  (** The operations of the vector. *)
  Lemma pstep_vec o s b r s' k q held held' : pinv s b -> pstep (PUse (Some k) o) s = ORet r s' -> get k (ps_prox s) = Some q ->
    vstate held q (al_mem A (ps_w s)) -> vec_op held o held' ->
    exists q' r', get k (ps_prox s') = Some q' /\ vstate held' q' (al_mem A (ps_w s')) /\ r = PBlock r' /\
      (N <= M -> answered o (px_tab q) (px_tab q') r').
  Proof.
    intros H E G V Ho.
    match goal with E : ?X = _ |- _ => change X with (pstep_at A dbg reset smax psmax nmax (PUse (Some k) o) (ps_prox s) s) in E end.
    unfold pstep_at, alive in E. rewrite G in E.
    destruct (focus amax smax nmax A own Hct s b k q H G) as (P1 & cs & P2 & l1 & l2 & S1 & t & S2 & leak & E1 & E2 & L1 & L2 & X1 & X2 & L & At & Hw).
    set (F := allc P1 ++ allc P2 ++ leak ++ live (ps_tab s)) in *.
    pose proof (lrep_arep amax nmax A own Htop cs _ _ _ _ L Hw) as R.
    pose proof (contract_framed _ _ _ _ F (al_mem A (ps_w s)) Hct) as Hct'.
    pose proof (vstate_at _ _ _ _ V (lrep_shadow _ _ _ _ _ _ L)) as T. destruct V as [Vm _].
    unfold caught, on_proxy in E. rewrite G in E.
    pose proof (use_ok amax smax psmax nmax A Hamax dbg Hcfg _ (ar_min (px_arena q)) o (mkCst (px_tab q) (px_arena q, ps_w s)) t Hct' (lr_min _ _ _ _ _ _ L)) as U.
    assert (Hf : fine amax A (framed A own F (al_mem A (ps_w s))) (ar_min (px_arena q)) (mkCst (px_tab q) (px_arena q, ps_w s)) t).
    { exists cs. split; [exact R|]. split; [reflexivity|]. split; [|exact At].
      pose proof (lr_caps _ _ _ _ _ _ L) as Hc. rewrite Forall_forall in Hc |- *. intros u Hu. apply in_map_iff in Hu.
      destruct Hu as (c & <- & Hi). apply (Hc c Hi). }
    specialize (U Hf).
    destruct (step psmax (blink A dbg) (fun _ => blink_reset A) o (mkCst (px_tab q) (px_arena q, ps_w s))) as [r1 c'|c'| |] eqn:Es; try contradiction.
    - injection E as <- <-.
      destruct (vec_step _ Hct' o held held' cs (px_tab q) (px_arena q) (ps_w s) r1 c' R Vm ltac:(pose proof (lr_min _ _ _ _ _ _ L); lia) T Ho Es)
        as (cs' & R' & Hm' & V' & An).
      rewrite (put_split _ _ _ _ _ _ E1 L1). cbn [ps_prox ps_w]. eexists. exists r1. split; [rewrite <- L1; apply get_mid|]. split.
      + split; [exact Hm'|]. exists cs'. split; [apply (arep_shadow _ _ _ _ _ _ _ _ R')|exact V'].
      + split; [reflexivity|]. cbn [px_tab]. exact An.
    - exfalso. destruct U as (_ & (l & z & -> & Hs & _) & _). cbn [vec_op] in Ho. destruct held; [contradiction|]. lia.
  Qed.
End Shapes.

Section Vector.
  Variable su : setup.
  Variable psmax nmax : Z.
  Hypothesis Hok : proxies_ok su psmax nmax.
  Notation run os := (proxy_run su psmax nmax os).
  Notation state := (pst (W := AW (W := bworld))).
  Notation pinv := (pinv (su_amax su) nmax (ba su) (sown su)).
  Notation memory s := (al_mem (ba su) (ps_w s)).
  Notation Hct := (ba_contract su (psu su psmax nmax Hok)).

  Lemma run_vec a N M k : req_ok psmax (mkLayout N a) -> forall os (s : state) b rs s' held q, pinv s b -> run os s = ORet rs s' ->
    get k (ps_prox s) = Some q -> vstate a N M held q (memory s) -> vector_ops k a N held os ->
    exists q' held', get k (ps_prox s') = Some q' /\ vstate a N M held' q' (memory s') /\
      (N <= M -> match px_tab q with
                 | [] => (turned_down k os rs) \/ (held = None /\ exists p, stays_at k p os rs)
                 | _ => stays_at k (addr (px_tab q)) os rs
                 end).
  Proof.
    intros HN. induction os as [|o os IH]; intros s b rs s' held q H E G V Ho.
    - unfold proxy_run in E. cbn in E. injection E as <- <-. exists q, held. split; [exact G|]. split; [exact V|]. intros _. cbn.
      destruct (px_tab q); [left|]; exact I.
    - apply run_cons in E. destruct E as (r & rs' & s1 & E1 & E2 & ->).
      pose proof (pstep_ok (su_amax su) (su_smax su) psmax nmax (ba su) (sown su) Hct (pamax su psmax nmax Hok) (su_dbg su) (do_reset su)
        (ba_reset su (psu su psmax nmax Hok)) (ptop su psmax nmax Hok) (pcfg su psmax nmax Hok) o s b H) as Hs. unfold wp in Hs. rewrite E1 in Hs.
      destruct Hs as (H1 & _ & _). cbn [vector_ops] in Ho. cbn [stays_at turned_down]. destruct (leaves_alone k o) eqn:Hl.
      + destruct (others_untouched (su_amax su) (su_smax su) psmax nmax (ba su) (sown su) Hct (pamax su psmax nmax Hok) (su_dbg su)
          (ptop su psmax nmax Hok) (pcfg su psmax nmax Hok) (do_reset su) (ba_reset su (psu su psmax nmax Hok)) o s b r s1 k q H E1 G Hl) as [G1 Hu].
        destruct (IH s1 _ rs' s' held q H1 E2 G1 (vstate_untouched (su_amax su) nmax a N M _ _ _ _ Hu V) Ho) as (q' & held' & G' & V' & An).
        exists q', held'. split; [exact G'|]. split; [exact V'|]. intros HM. specialize (An HM). destruct (px_tab q); [|split; [exact I|exact An]].
        destruct An as [An|(Eh & p & An)]; [left; split; [exact I|exact An]|right; split; [exact Eh|exists p; split; [exact I|exact An]]].
      + (* the vector's own *)
        assert (Hown : exists o', o = PUse (Some k) o' \/ (exists j, o = PDrop j \/ o = PReset j)).
        { destruct o as [|j|j|n|[j|] o']; try discriminate Hl; cbn [leaves_alone] in Hl; apply negb_false_iff, Nat.eqb_eq in Hl; subst j.
          - exists (OpReset true). eauto. - exists (OpReset true). eauto. - exists o'. left. reflexivity. }
        destruct Hown as (o' & [->|(j & [->| ->])]); try contradiction.
        assert (Hv : exists held1, vec_op a N held o' held1 /\ vector_ops k a N held1 os).
        { destruct o' as [l z|h off bs|h l|h old new|h old new|keep]; cbn [vec_op]; try (destruct held; contradiction).
          - destruct held; [contradiction|]. destruct Ho as (Ha & Hb & Hc). exists (Some (l_size l)). auto.
          - exists held. auto.
          - destruct h as [|h]; [|destruct held; contradiction]. destruct held; [|contradiction]. destruct Ho as (Ha & Hb & Hc & Hd). exists (Some (l_size new)). auto. }
        destruct Hv as (held1 & Hv & Ho1).
        destruct (pstep_vec (su_amax su) (su_smax su) psmax nmax (ba su) (sown su) Hct (pamax su psmax nmax Hok) (su_dbg su)
          (ptop su psmax nmax Hok) (pcfg su psmax nmax Hok) a N M HN (do_reset su) o' s b r s1 k q held held1 H E1 G V Hv) as (q1 & r' & G1 & V1 & -> & An1).
        destruct (IH s1 _ rs' s' held1 q1 H1 E2 G1 V1 Ho1) as (q' & held' & G' & V' & An).
        exists q', held'. split; [exact G'|]. split; [exact V'|]. intros HM. specialize (An HM). specialize (An1 HM).
        destruct o' as [l z|h off bs|h l|h old new|h old new|keep]; cbn [vec_op] in Hv; try (destruct held; contradiction); cbn [answered] in An1.
        * destruct held; [contradiction|]. destruct Hv as (_ & _ & ->).
          assert (Et : px_tab q = []).
          { destruct V as (_ & cs & _ & V). unfold vshape in V. destruct (px_tab q) as [|[u|] [|u' t]]; auto; try contradiction.
            destruct V as (c & rr & n & _ & _ & _ & _ & X & _). contradiction. }
          rewrite Et. destruct An1 as [[Et1 ->]|[Et1 ->]].
          -- rewrite Et1 in An. destruct An as [An|(X & _)]; [|discriminate X]. left. split; [reflexivity|exact An].
          -- right. split; [reflexivity|]. destruct (px_tab q1) as [|u1 t1]; [contradiction|].
             exists (addr (u1 :: t1)). split; [reflexivity|exact An].
        * destruct An1 as [-> Et]. rewrite <- Et. subst held1. destruct (px_tab q1) as [|u1 t1].
          { destruct An as [An|(Eh & p & An)]; [left; split; [reflexivity|exact An]|right; split; [exact Eh|exists p; split; [exact I|exact An]]]. }
          split; [exact I|exact An].
        * destruct h as [|h]; [|destruct held; contradiction]. destruct held; [|contradiction]. destruct Hv as (_ & _ & _ & ->).
          destruct An1 as [(Et & Et1 & ->)|(Et & Et1 & Ea & ->)].
          -- rewrite Et. rewrite Et1 in An. destruct An as [An|(X & _)]; [|discriminate X]. left. split; [reflexivity|exact An].
          -- destruct (px_tab q) as [|u0 t0] eqn:Eq; [contradiction|]. destruct (px_tab q1) as [|u1 t1]; [contradiction|].
             rewrite Ea in An. split; [reflexivity|exact An].
  Qed.

  (** A proxy is made in [s1], and used for a vector. *)
  Lemma made_vec a N os1 rs1 s1 os2 r rs2 s2 : req_ok psmax (mkLayout N a) ->
    run os1 (proxy_start su) = ORet rs1 s1 -> run (PLocal :: os2) s1 = ORet (r :: rs2) s2 ->
    vector_ops (length (ps_prox s1)) a N None os2 ->
    (exists b, pinv s2 b) /\ exists q held, get (length (ps_prox s1)) (ps_prox s2) = Some q /\
      vstate a N (ps_max s1) held q (memory s2) /\
      (N <= ps_max s1 -> (exists p, stays_at (length (ps_prox s1)) p os2 rs2) \/ turned_down (length (ps_prox s1)) os2 rs2).
  Proof.
    intros HN E1 E2 Ho. destruct (proxy_run_inv su psmax nmax Hok os1 _ _ (proxy_start_inv su psmax nmax Hok)) as (rs' & s' & E & _ & I1 & _).
    rewrite E in E1. injection E1 as -> ->.
    apply run_cons in E2. destruct E2 as (r0 & rs2' & s1' & F1 & F2 & Er). injection Er as <- <-.
    pose proof (pstep_ok (su_amax su) (su_smax su) psmax nmax (ba su) (sown su) Hct (pamax su psmax nmax Hok) (su_dbg su) (do_reset su)
        (ba_reset su (psu su psmax nmax Hok)) (ptop su psmax nmax Hok) (pcfg su psmax nmax Hok) PLocal s1 _ I1) as Hs. unfold wp in Hs. rewrite F1 in Hs.
    destruct Hs as (I2 & _ & _).
    destruct (proxy_run_inv su psmax nmax Hok os2 _ _ I2) as (rs3 & s3 & E3 & _ & I3 & _).
    rewrite F2 in E3. injection E3 as <- <-. split; [eexists; exact I3|].
    unfold pstep, pstep_at, caught, p_local in F1. injection F1 as _ F1.
    assert (G : get (length (ps_prox s1)) (ps_prox s1') = Some (mkProxy (arena_with_chunk_size (ps_max s1)) [])) by (rewrite <- F1; cbn [ps_prox]; apply get_mid).
    destruct (run_vec a N (ps_max s1) (length (ps_prox s1)) HN os2 s1' _ rs2 s2 None _ I2 F2 G) as (q' & held' & G' & V' & An).
    - split; [reflexivity|]. exists []. split; [|reflexivity]. repeat split.
    - exact Ho.
    - exists q', held'. split; [exact G'|]. split; [exact V'|]. intros HM. specialize (An HM). cbn [px_tab] in An. destruct An as [An|(_ & An)]; [right|left]; exact An.
  Qed.

  (** If the recorded size covers the vector, it never moves. *)
  Theorem vec_in_place a N os1 rs1 s1 os2 r rs2 s2 : req_okb psmax (mkLayout N a) = true ->
    run os1 (proxy_start su) = ORet rs1 s1 -> run (PLocal :: os2) s1 = ORet (r :: rs2) s2 ->
    vector_ops (length (ps_prox s1)) a N None os2 -> N <= ps_max s1 ->
    ~ several (ba su) s2 (length (ps_prox s1)) /\
    ((exists p, stays_at (length (ps_prox s1)) p os2 rs2) \/ turned_down (length (ps_prox s1)) os2 rs2).
  Proof.
    intros HN E1 E2 Ho HM. destruct (made_vec a N _ _ _ _ _ _ _ HN E1 E2 Ho) as ((b & H) & q & held & G & V & An). split; [|apply An; exact HM].
    intros (p' & r0 & q0 & G' & Er & El & Hq). rewrite G in G'. injection G' as <-.
    destruct V as (_ & cs & (Hh & Hd & Hc) & V). rewrite Er in Hh. destruct cs as [|c cs]; [discriminate|]. cbn [head_ptr] in Hh. injection Hh as ->.
    cbn [chain] in Hc. destruct Hc as (_ & (_ & _ & X3 & _) & _). unfold PREV in X3. rewrite El in X3. injection X3 as ->.
    unfold vshape in V. destruct (px_tab q) as [|[u|] [|u' t]]; try contradiction; [discriminate|].
    destruct V as (c1 & r1 & n & E0 & _ & _ & _ & _ & V). injection E0 as <- <-. destruct (V HM) as (_ & -> & _). cbn in Hq. contradiction.
  Qed.

  (** When the vector is done, its size is recorded. *)
  Theorem vec_recorded a N os1 rs1 s1 os2 r rs2 s2 u fin os3 rs3 s3 : req_okb psmax (mkLayout N a) = true ->
    run os1 (proxy_start su) = ORet rs1 s1 -> run (PLocal :: os2) s1 = ORet (r :: rs2) s2 ->
    vector_ops (length (ps_prox s1)) a N None os2 -> owns s2 (Some (length (ps_prox s1))) 0 u ->
    fin = PDrop (length (ps_prox s1)) \/ fin = PReset (length (ps_prox s1)) -> run (fin :: os3) s2 = ORet rs3 s3 ->
    l_size (u_layout u) <= ps_max s3.
  Proof.
    intros HN E1 E2 Ho (q0 & G0 & Gu) Hf E3. destruct (made_vec a N _ _ _ _ _ _ _ HN E1 E2 Ho) as ((b & H) & q & held & G & V & _).
    rewrite G in G0. injection G0 as <-. destruct V as (_ & cs & (Hh & Hd & Hc) & V).
    unfold vshape in V. destruct (px_tab q) as [|[u0|] [|u' t]] eqn:Et; try contradiction; [discriminate Gu|]. cbn in Gu. injection Gu as ->.
    destruct V as (c & r1 & n & -> & Eu & Hn & Ec & _). cbn [chain head_ptr] in *. destruct Hc as (Hwf & (_ & X2 & _) & _).
    assert (Hcap : last_capacity (ba su) s2 (length (ps_prox s1)) = Some (c_end c - (c_ptr c + 32))).
    { unfold last_capacity. rewrite G, Hh. unfold END in X2. rewrite X2. reflexivity. }
    apply run_cons in E3. destruct E3 as (r2 & rs' & s2' & F1 & F2 & _).
    pose proof (pstep_ok (su_amax su) (su_smax su) psmax nmax (ba su) (sown su) Hct (pamax su psmax nmax Hok) (su_dbg su) (do_reset su)
        (ba_reset su (psu su psmax nmax Hok)) (ptop su psmax nmax Hok) (pcfg su psmax nmax Hok) fin s2 b H) as Hst. unfold wp in Hst. rewrite F1 in Hst.
    destruct Hst as (H2 & _ & Hc2 & _). specialize (Hc2 _ _ Hf Hcap).
    destruct (proxy_run_inv su psmax nmax Hok os3 _ _ H2) as (rs4 & s4 & E4 & _ & _ & (Hm & _) & _). rewrite F2 in E4. injection E4 as <- <-.
    destruct (req_ok_facts _ _ HN) as (_ & _ & _ & Ha & _). cbn [l_align] in Ha.
    pose proof (round_up_spec (c_base c) a Ha) as [B _]. destruct Hwf as (_ & W1). rewrite Eu in *. cbn [u_layout l_size u_ptr] in *. unfold c_base, HDR in *. lia.
  Qed.

  (** So the second vector, of another type perhaps, but no larger, never moves. *)
  Theorem second_time a N a' N' os1 rs1 s1 os2 r rs2 s2 u fin os3 rs3 s3 os4 r' rs4 s4 :
    req_okb psmax (mkLayout N a) = true -> req_okb psmax (mkLayout N' a') = true ->
    run os1 (proxy_start su) = ORet rs1 s1 -> run (PLocal :: os2) s1 = ORet (r :: rs2) s2 ->
    vector_ops (length (ps_prox s1)) a N None os2 -> owns s2 (Some (length (ps_prox s1))) 0 u ->
    fin = PDrop (length (ps_prox s1)) \/ fin = PReset (length (ps_prox s1)) -> run (fin :: os3) s2 = ORet rs3 s3 ->
    run (PLocal :: os4) s3 = ORet (r' :: rs4) s4 -> vector_ops (length (ps_prox s3)) a' N' None os4 -> N' <= l_size (u_layout u) ->
    ~ several (ba su) s4 (length (ps_prox s3)) /\
    ((exists p, stays_at (length (ps_prox s3)) p os4 rs4) \/ turned_down (length (ps_prox s3)) os4 rs4).
  Proof.
    intros HN HN' E1 E2 Ho Hu Hf E3 E4 Ho4 Hle.
    pose proof (vec_recorded a N _ _ _ _ _ _ _ u fin os3 rs3 s3 HN E1 E2 Ho Hu Hf E3) as Hr.
    pose proof (run_app su psmax nmax _ _ _ _ _ _ _ E1 E2) as A2. pose proof (run_app su psmax nmax _ _ _ _ _ _ _ A2 E3) as A3.
    apply (vec_in_place a' N' _ _ s3 os4 r' rs4 s4 HN' A3 E4 Ho4). lia.
  Qed.
End Vector.
