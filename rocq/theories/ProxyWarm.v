(** Repeated work on new proxies: how the recorded size grows until one chunk is enough. *)
From Coq Require Import Permutation.
From Verif Require Import Base BaseFacts Alloc AllocFacts Arena ArenaFacts ArenaInv ArenaOps BlinkAlloc BlinkFacts
  History HistoryFacts Setup SetupFacts Frame Proxy ProxyFacts ProxyProps.

(** Proxy [k] holds more than one chunk: the header of its newest chunk has a link ([prev],
    src/arena/mod.rs, [ChunkHeader]) to another. *)
Definition several {W} (A : Allocator W) (s : pst (W := W)) (k : nat) : Prop :=
  exists p r q, get k (ps_prox s) = Some p /\ ar_root (px_arena p) = Some r /\
    load (al_mem A (ps_w s)) (r + 16) 8 = Some q /\ q <> 0.

(** What the operations on proxy [k] may use up since its last reset: the sizes and the
    padding asked for. *)
Definition used_by (k : nat) (n : Z) (o : pop) : Z :=
  match o with
  | PReset j => if (j =? k)%nat then 0 else n
  | PUse (Some j) (OpReset _) => if (j =? k)%nat then 0 else n
  | PUse (Some j) o => if (j =? k)%nat then n + need o else n
  | _ => n
  end.
Definition since_reset (k : nat) (os : list pop) : Z := fold_left (used_by k) os 0.

Lemma need_pos o : 0 <= need o.
Proof. destruct o; cbn; lia. Qed.

Lemma get_mid_none {T} (t1 t2 : list (option T)) : get (length t1) (t1 ++ None :: t2) = None.
Proof. unfold get. rewrite nth_error_app2, Nat.sub_diag by lia. reflexivity. Qed.

Section Shapes.
  Context {W : Type} (amax smax psmax nmax : Z) (A : Allocator W) (own : W -> list ublock -> Prop).
  Hypothesis Hct : contract amax smax A own.
  Hypothesis Hamax : 0 <= amax <= USIZE_MAX.
  Variable dbg : bool.
  Notation top := (Z.max amax nmax).
  Hypothesis Htop : top <= USIZE_MAX.
  Hypothesis Hcfg : cfg_lax dbg amax psmax top smax.

  (** What an operation that needs [n] bytes does to the chunks of a proxy. *)
  Definition moves (n min : Z) (cs cs' : list chunk) : Prop :=
    match cs' with
    | [] => cs = []
    | c' :: r' =>
        (exists c r, cs = c :: r /\ c_u c' = c_u c /\ (r' = r \/ r' = []) /\ c_cur c' <= c_cur c + n) \/
        (r' = cs /\ c_cur c' <= c_base c' + n /\
         match cs with [] => True | c :: _ => HDR + min + 64 <= u_len (c_u c') /\ c_end c - c_cur c < n end)
    end.
  Lemma moves_refl n min cs : 0 <= n -> moves n min cs cs.
  Proof. intros Hn. destruct cs as [|c r]; cbn; [reflexivity|]. left. exists c, r. split; [reflexivity|]. split; [reflexivity|]. split; [left; reflexivity|]. lia. Qed.

  (** The list of chunks as far as it can be read from the arena and the memory. *)
  Definition shadow (cs : list chunk) (ar : Arena) (m : mem) : Prop :=
    ar_root ar = head_ptr cs /\ ar_depth ar = length cs /\ chain m cs.
  Lemma arep_shadow own' cs ar w us ext : arep amax A own' ext cs ar w us -> shadow cs ar (al_mem A w).
  Proof. intros [R1 R2 R3 R4 R5 R6 R7 R8]. repeat split; assumption. Qed.
  Lemma lrep_shadow cs ar m us : lrep amax nmax cs ar m us -> shadow cs ar m.
  Proof. intros [R1 R2 R3 R4 R5 R6 R7 R8]. repeat split; assumption. Qed.

  Lemma shadow_head c r cs ar m : shadow (c :: r) ar m -> shadow cs ar m ->
    exists c' r', cs = c' :: r' /\ length r' = length r /\ c_ptr c' = c_ptr c /\ c_cur c' = c_cur c /\ c_end c' = c_end c.
  Proof.
    intros (H1 & H2 & H3) (G1 & G2 & G3). destruct cs as [|c' r']; [cbn in *; congruence|].
    cbn [head_ptr chain length] in *. destruct H3 as (_ & (X1 & X2 & _) & _), G3 as (_ & (Y1 & Y2 & _) & _).
    assert (E : c_ptr c' = c_ptr c) by congruence. rewrite E in Y1, Y2.
    exists c', r'. split; [reflexivity|]. split; [lia|]. split; [exact E|]. split; congruence.
  Qed.

  Lemma fits_room cs l n : match cs with c :: r => cwf c /\ c_end c <= amax | [] => True end ->
    0 <= l_size l -> 0 < l_align l -> l_size l + (l_align l - 1) <= n ->
    fits_root cs l = false -> match cs with [] => True | c :: _ => c_end c - c_cur c < n end.
  Proof.
    destruct cs as [|c r]; [auto|]. intros [_ He] Hs Ha Hn. cbn [fits_root]. unfold room.
    destruct (round_up_spec (c_cur c) (l_align l) Ha) as [B _].
    destruct (Z.leb_spec (c_cur c + (l_size l + (l_align l - 1))) USIZE_MAX); cbn [andb].
    - intros E. apply Z.leb_gt in E. lia.
    - intros _. lia.
  Qed.

  (** The request for another chunk leaves room for 64 bytes more than the minimum. *)
  Lemma slow_req_next cs min l lay : cs <> [] -> 0 <= min -> 0 <= sum_caps (tl cs) -> req_ok psmax l ->
    slow_req cs min l = Some lay -> HDR + min + 64 <= l_size lay.
  Proof.
    intros Hne Hmin Hsum Hl. unfold slow_req. destruct cs as [|c r]; [contradiction|]. cbn [cum_of tl] in *.
    destruct (req_ok_facts _ _ Hl) as (_ & _ & _ & Hpos & Hsz & _).
    rewrite (next_chunk_size_raw (Some (sum_caps r)) _ _ psmax Hmin Hsum Hl).
    assert (Hr : HDR + min + 64 <= chunk_raw (Some (sum_caps r)) min l).
    { unfold chunk_raw, HDR, CHUNK_MIN_GROW_STEP. destruct (Z.ltb_spec HDR_ALIGN (l_align l)); lia. }
    set (raw := chunk_raw (Some (sum_caps r)) min l) in *. clearbody raw.
    destruct (Z.leb_spec raw USIZE_MAX) as [L|]; [|discriminate].
    destruct (chunk_round_spec raw) as (R1 & R2 & R3); [unfold HDR in *; lia|].
    destruct (align_up (chunk_round raw) HDR_ALIGN) as [s'|] eqn:E; [|discriminate].
    intros E2; inversion E2; subst lay; cbn [l_size].
    assert (Hr0 : 0 <= chunk_round raw) by (unfold HDR in *; lia).
    destruct (align_up8 _ _ Hr0 E) as (B & _). lia.
  Qed.

  (** ** One call *)

  Section Call.
    Variable own' : W -> list ublock -> Prop.
    Hypothesis Hct' : contract amax smax A own'.

    Lemma arep_end c cs ar w us : arep amax A own' [] (c :: cs) ar w us -> cwf c /\ c_end c <= amax.
    Proof.
      intros R. destruct (arep_chunk_ok _ _ _ _ Hct' _ _ _ _ _ c R (or_introl eq_refl)) as (H1 & ((G1 & _ & _ & G4) & _) & _).
      split; [exact H1|]. unfold c_end, c_ptr. unfold ublk in *. cbn [b_ptr b_len] in *. lia.
    Qed.

    Lemma slow_shape cs ar w us l c w' ar' us' n : arep amax A own' [] cs ar w us -> req_ok psmax l ->
      fits_root cs l = false -> slow_info A cs (ar_min ar) l w (Some c) w' -> c_cur c <= c_base c + n ->
      l_size l + (l_align l - 1) <= n -> arep amax A own' [] (c :: cs) ar' w' us' -> moves n (ar_min ar) cs (c :: cs).
    Proof.
      intros R Hl Hf [Hs _] Hc Hn R'. cbn [moves]. right. split; [reflexivity|]. split; [exact Hc|].
      destruct (req_ok_facts _ _ Hl) as (_ & _ & _ & Hpos & Hsz & _).
      destruct cs as [|c0 cs0]; [exact I|]. split.
      - pose proof (slow_req_next (c0 :: cs0) (ar_min ar) l _ ltac:(discriminate) (proj1 (ar_min_ok _ _ _ _ _ _ _ _ R))
          (arep_caps_tl _ _ _ _ Hct' _ _ _ _ _ R) Hl Hs) as Hb.
        destruct (arep_chunk_ok _ _ _ _ Hct' _ _ _ _ _ c R' (or_introl eq_refl)) as (_ & ((_ & _ & G & _) & _) & _).
        unfold ublk in G. cbn [b_len] in G. lia.
      - apply (fits_room (c0 :: cs0) l n); auto; try lia. apply (arep_end _ _ _ _ _ R).
    Qed.

    Lemma alloc_shape cs ar w us l n r aw' : arep amax A own' [] cs ar w us -> ar_min ar <= top -> req_ok psmax l ->
      l_size l + (l_align l - 1) <= n -> blink_allocate A dbg l (ar, w) = ORet r aw' ->
      exists cs', moves n (ar_min ar) cs cs' /\
        arep amax A own' [] cs' (fst aw') (snd aw') (match r with Some b => mku b l :: us | None => us end).
    Proof.
      intros R Hm Hl Hn E. destruct (req_ok_facts _ _ Hl) as (_ & _ & _ & Hpos & Hsz & _).
      pose proof (cfg_of amax smax psmax nmax dbg Hcfg (ar_min ar) Hm) as Hlax.
      assert (Hn0 : 0 <= n) by lia.
      destruct (Bool.bool_dec (negb dbg || (1 <=? ar_min ar) || negb (is_none (ar_root ar))) true) as [Hc|Hc].
      - assert (Hf : cfg_for dbg amax psmax (ar_min ar) smax (ar_root ar) l).
        { apply (cfg_lax_for Hlax). intros ->. cbn in Hc. destruct (Z.leb_spec 1 (ar_min ar)); [left; assumption|].
          right; right; right. intros Er. rewrite Er in Hc. discriminate. }
        pose proof (blink_allocate_ok amax psmax smax A own' Hct' Hamax dbg [] cs ar w us l R Hl Hf) as H.
        unfold wp in H. rewrite E in H. destruct H as (_ & Mm & H). destruct (fits_root cs l) eqn:Fr.
        + destruct H as (_ & c & cs' & b & -> & -> & Eb & _ & R'). exists (set_cur c (b_ptr b + l_size l) :: cs'). split; [|exact R'].
          cbn [moves]. left. exists c, cs'. split; [reflexivity|]. split; [reflexivity|]. split; [left; reflexivity|].
          pose proof (round_up_spec (c_cur c) (l_align l) Hpos) as [Br _]. rewrite Eb. cbn [b_ptr set_cur c_cur]. lia.
        + destruct r as [b|].
          * destruct H as (_ & _ & c & Hi & Ec & Eb & R'). exists (c :: cs). split; [|exact R'].
            apply (slow_shape cs ar w us l c (snd aw') (fst aw') (mku b l :: us) n R Hl Fr Hi); [|exact Hn|exact R'].
            pose proof (round_up_spec (c_base c) (l_align l) Hpos) as [Br _]. lia.
          * destruct H as [_ R']. exists cs. split; [apply moves_refl; exact Hn0|exact R'].
      - apply Bool.not_true_is_false in Hc. apply orb_false_iff in Hc. destruct Hc as [Hc Hr]. apply orb_false_iff in Hc. destruct Hc as [Hd H1].
        assert (Ed : dbg = true) by (destruct dbg; [reflexivity|discriminate]).
        assert (Er : ar_root ar = None) by (destruct (ar_root ar); [discriminate|reflexivity]).
        pose proof (proj1 (ar_min_ok _ _ _ _ _ _ _ _ R)) as Hm0.
        assert (cs = []) as -> by (pose proof (ar_head _ _ _ _ _ _ _ _ R) as X; rewrite Er in X; destruct cs; [reflexivity|discriminate]).
        pose proof (placed_nil _ (ar_placed _ _ _ _ _ _ _ _ R)) as ->.
        pose proof (fresh_alloc amax smax psmax nmax A Hamax dbg Hcfg own' ar w l Hct' R ltac:(lia) Ed Hl) as H. rewrite E in H. destruct H as [_ H].
        destruct r as [b|]; [|exists []; split; [reflexivity|exact H]].
        destruct H as (_ & _ & c & Hc & R'). exists [c]. split; [|exact R']. cbn [moves]. right. split; [reflexivity|]. split; [|exact I].
        (* where the cursor is: the chunk is the one the slow path made *)
        assert (Hlen : forall lay b w1, slow_req [] (ar_min ar) l = Some lay -> al_allocate A lay w = ORet (Some b) w1 -> dbg = true -> HDR < b_len b).
        { intros lay b0 w1 Es Ea _. destruct (Z_le_gt_dec (b_len b0) HDR) as [Lb|]; [exfalso|lia].
          unfold blink_allocate, bind in E. unfold alloc_fast at 1, with_aw at 1 in E. cbn [fst snd] in E. rewrite Er in E. cbn [ret] in E.
          unfold arena_alloc_slow, with_aw in E. cbn [fst snd] in E. rewrite Er in E. unfold alloc_slow, bind in E. cbn [ret] in E.
          destruct (slow_req_spec [] (ar_min ar) l psmax smax lay dbg amax) as (Q1 & _ & _ & _ & Q5); auto; try (cbn; lia).
          pose proof (ct_allocate _ _ _ _ Hct' w _ lay (ar_own _ _ _ _ _ _ _ _ R) Q1) as Hal. unfold wp in Hal. rewrite Ea in Hal.
          destruct Hal as (_ & (G1 & G2 & G3 & G4) & O1).
          unfold slow_req in Es. cbn [cum_of] in *.
          destruct (next_chunk_size None (ar_min ar) l) as [n0|] eqn:En; [|discriminate].
          destruct (align_up n0 HDR_ALIGN) as [n'|] eqn:Eu; [|discriminate]. injection Es as <-.
          destruct (slow_assert [] (ar_min ar) l psmax smax dbg amax n0) as [_ Has]; auto; try (cbn; lia).
          unfold debug_assert at 1 in E. rewrite (Has Ed), Ed in E. cbn [andb negb ret] in E.
          unfold alloc_chunk in E. rewrite Eu in E. unfold bind in E. rewrite Ea in E. unfold init_chunk, bind, debug_assert in E.
          cbn [l_align] in G2. unfold HDR_ALIGN in *. change 8 with (2 ^ 3) in E at 1. rewrite is_aligned_to_mod in E by lia. change (2 ^ 3) with 8 in E. rewrite G2 in E.
          cbn [Z.eqb andb negb ret] in E. replace (HDR <? b_len b0) with false in E by lia. cbn [andb negb panic fst snd] in E. discriminate E. }
        pose proof (alloc_slow_gen amax psmax smax A own' Hct' Hamax dbg [] [] ar w [] l R Hl Hlax Hlen) as Hs.
        apply wp_inv in Hs. destruct Hs as (r0 & w0 & E0 & _ & Hs).
        unfold blink_allocate, bind in E. unfold alloc_fast at 1, with_aw at 1 in E. cbn [fst snd] in E. rewrite Er in E. cbn [ret] in E.
        unfold arena_alloc_slow, with_aw, bind in E. cbn [fst snd] in E. rewrite E0 in E.
        destruct r0 as [[b1 q]|]; cbn in E; [|discriminate E]. injection E as <- <-. cbn [fst snd] in R'.
        destruct Hs as (_ & _ & c1 & _ & _ & Ec & Eb & R1).
        destruct (shadow_head _ _ _ _ _ (arep_shadow _ _ _ _ _ _ R1) (arep_shadow _ _ _ _ _ _ R')) as (c2 & r2 & E2 & _ & P1 & P2 & _).
        injection E2 as <- <-. pose proof (round_up_spec (c_base c1) (l_align l) Hpos) as [Br _].
        unfold c_base in *. rewrite P1, P2. lia.
    Qed.

    Lemma resize_shape cs ar w u us old new n r aw' : arep amax A own' [] cs ar w (u :: us) -> ar_min ar <= top -> fits old u ->
      req_ok psmax new -> l_size new + (l_align new - 1) <= n -> blink_resize A dbg (u_ptr u) old new (ar, w) = ORet r aw' ->
      exists cs', moves n (ar_min ar) cs cs' /\
        arep amax A own' [] cs' (fst aw') (snd aw') (match r with Some b => mku b new :: us | None => u :: us end).
    Proof.
      intros R Hm Hf Hl Hn E. destruct (req_ok_facts _ _ Hl) as (_ & _ & _ & Hpos & Hsz & _).
      pose proof (cfg_of amax smax psmax nmax dbg Hcfg (ar_min ar) Hm) as Hlax.
      assert (Hn0 : 0 <= n) by lia.
      assert (Hcf : cfg_for dbg amax psmax (ar_min ar) smax (ar_root ar) new).
      { apply (cfg_lax_for Hlax). intros _. right; right; right. rewrite (ar_head _ _ _ _ _ _ _ _ R).
        destruct cs; [|discriminate]. pose proof (placed_nil _ (ar_placed _ _ _ _ _ _ _ _ R)). discriminate. }
      pose proof (blink_resize_ok amax psmax smax A own' Hct' Hamax dbg [] cs ar w u us old new R Hf Hl Hcf) as H.
      unfold wp in H. rewrite E in H. destruct H as (_ & _ & H). destruct r as [b|].
      - destruct H as (_ & _ & [(_ & c & m & cs' & -> & Hc & R')|(Fr & c & [Hi Hc] & R')]).
        + exists (set_cur c m :: cs'). split; [|exact R']. cbn [moves]. left. exists c, cs'. split; [reflexivity|]. split; [reflexivity|].
          split; [left; reflexivity|]. cbn [set_cur c_cur]. lia.
        + exists (c :: cs). split; [|exact R']. apply (slow_shape cs ar w (u :: us) new c (snd aw') (fst aw') (mku b new :: us) n R Hl Fr Hi); [lia|exact Hn|exact R'].
      - destruct H as (_ & _ & _ & R'). exists cs. split; [apply moves_refl; exact Hn0|exact R'].
    Qed.

    (** ** One operation of the client *)

    Lemma alloc_any_shape cs ar w us l (z : bool) n r aw' : arep amax A own' [] cs ar w us -> ar_min ar <= top -> req_ok psmax l ->
      l_size l + (l_align l - 1) <= n ->
      (if z then al_allocate_zeroed (blink A dbg) l else al_allocate (blink A dbg) l) (ar, w) = ORet r aw' ->
      exists cs', moves n (ar_min ar) cs cs' /\
        arep amax A own' [] cs' (fst aw') (snd aw') (match r with Some b => mku b l :: us | None => us end).
    Proof.
      intros R Hm Hl Hn. destruct z; [|apply alloc_shape; assumption].
      unfold al_allocate_zeroed, bind. cbn [blink al_allocate].
      destruct (blink_allocate A dbg l (ar, w)) as [r1 [ar1 w1]| | |] eqn:E1; try discriminate.
      destruct (alloc_shape cs ar w us l n r1 (ar1, w1) R Hm Hl Hn E1) as (cs' & Hmv & R'). cbn [fst snd] in R'.
      destruct r1 as [b|]; unfold mfill; cbn [blink al_set_mem al_mem ret]; intros E; injection E as <- <-; cbn [fst snd]; exists cs'; (split; [exact Hmv|]); [|exact R'].
      apply (arep_own_write amax smax A own' Hct' cs' ar1 w1 us [] (mku b l)); [exact R'|].
      intros x Hx. apply fill_other. unfold in_u, mku in Hx. cbn in Hx. lia.
    Qed.

    Lemma step_shape o cs t ar w r c' : arep amax A own' [] cs ar w (live t) -> ar_min ar <= top ->
      step psmax (blink A dbg) (fun _ => blink_reset A) o (mkCst t (ar, w)) = ORet r c' ->
      exists cs' us', arep amax A own' [] cs' (fst (c_w c')) (snd (c_w c')) us' /\
        match o with
        | OpReset _ => match cs with [] => cs' = [] | c :: _ => cs' = [set_cur c (c_base c)] end
        | _ => moves (need o) (ar_min ar) cs cs'
        end.
    Proof.
      intros R Hm.
      match goal with |- ?X = _ -> _ => change X with (step_at psmax (blink A dbg) (fun _ => blink_reset A) o t (mkCst t (ar, w))) end.
      assert (Hstay : forall us1, arep amax A own' [] cs ar w us1 -> forall o1, exists cs' us', arep amax A own' [] cs' ar w us' /\ moves (need o1) (ar_min ar) cs cs').
      { intros us1 R1 o1. exists cs, us1. split; [exact R1|]. apply moves_refl. apply need_pos. }
      assert (Hof : forall h u, get h t = Some u -> exists us, arep amax A own' [] cs ar w (u :: us)).
      { intros h u G. destruct (get_split h t u G) as (t1 & t2 & -> & _). exists (live (t1 ++ t2)).
        apply (arep_perm _ _ _ _ _ _ _ _ _ (live_perm_mid t1 t2 u) R). }
      unfold step_at, skip. destruct o as [l z|h off bs|h l|h old new|h old new|keep].
      - destruct (req_okb psmax l) eqn:El; [|intros E; injection E as <- <-; apply (Hstay _ R (OpAlloc l z))].
        unfold call. cbn [c_w c_tab].
        destruct ((if z then al_allocate_zeroed (blink A dbg) l else al_allocate (blink A dbg) l) (ar, w)) as [r1 aw1| | |] eqn:E1; try discriminate.
        destruct (alloc_any_shape cs ar w _ l z (need (OpAlloc l z)) r1 aw1 R Hm El ltac:(cbn [need]; lia) E1) as (cs' & Hmv & R').
        intros E; injection E as <- <-. cbn [c_w]. eauto.
      - destruct (get h t) as [u|] eqn:G; [|intros E; injection E as <- <-; apply (Hstay _ R (OpWrite h off bs))].
        destruct ((0 <=? off) && (off + Z.of_nat (length bs) <=? u_len u)) eqn:Eo; [|intros E; injection E as <- <-; apply (Hstay _ R (OpWrite h off bs))].
        apply andb_true_iff in Eo. destruct Eo as [Eo1 Eo2]. intros E; injection E as <- <-. cbn [c_w c_tab blink al_set_mem al_mem fst snd].
        destruct (Hof h u G) as (us & R1). exists cs, (u :: us). split; [|apply moves_refl; apply need_pos].
        apply (arep_own_write amax smax A own' Hct' cs ar w us [] u); [exact R1|].
        intros x Hx. unfold write_cells. unfold in_u in Hx.
        destruct (Z.leb_spec (u_ptr u + off) x); destruct (Z.ltb_spec x (u_ptr u + off + Z.of_nat (length bs))); cbn [andb]; try reflexivity. lia.
      - destruct (get h t) as [u|] eqn:G; [|intros E; injection E as <- <-; apply (Hstay _ R (OpDealloc h l))].
        destruct (fitsb l u) eqn:Ef; [|intros E; injection E as <- <-; apply (Hstay _ R (OpDealloc h l))].
        apply fitsb_spec in Ef. destruct (Hof h u G) as (us & R1). unfold bind, call. cbn [c_w c_tab blink al_deallocate].
        assert (0 <= l_size (u_layout u)) by (pose proof (ar_ok _ _ _ _ _ _ _ _ R1) as Ho; inversion Ho as [|? ? Hu _]; subst; apply Hu).
        destruct Ef as [F1 F2].
        pose proof (blink_deallocate_ok amax smax A own' Hct' Hamax [] cs ar w u us (l_size l) R1 ltac:(lia)) as H1. unfold wp in H1.
        destruct (blink_deallocate A (u_ptr u) (l_size l) (ar, w)) as [[] [ar1 w1]| | |]; try contradiction.
        cbn [fst snd] in H1. destruct H1 as (-> & _ & _ & R2). cbn [ret]. intros E; injection E as <- <-. cbn [c_w fst snd].
        exists cs, (u :: us). split; [exact R2|]. apply moves_refl. apply need_pos.
      - destruct (get h t) as [u|] eqn:G; [|intros E; injection E as <- <-; apply (Hstay _ R (OpResize h old new))].
        destruct (fitsb old u && req_okb psmax new) eqn:Ef; [|intros E; injection E as <- <-; apply (Hstay _ R (OpResize h old new))].
        apply andb_true_iff in Ef. destruct Ef as [Ef El]. apply fitsb_spec in Ef. destruct (Hof h u G) as (us & R1).
        unfold call. cbn [c_w c_tab blink al_grow al_shrink].
        assert (Es : (if l_size old <=? l_size new then blink_resize A dbg (u_ptr u) old new else blink_resize A dbg (u_ptr u) old new) = blink_resize A dbg (u_ptr u) old new)
          by (destruct (l_size old <=? l_size new); reflexivity).
        rewrite Es. destruct (blink_resize A dbg (u_ptr u) old new (ar, w)) as [r1 aw1| | |] eqn:E1; try discriminate.
        destruct (resize_shape cs ar w u us old new (need (OpResize h old new)) r1 aw1 R1 Hm Ef El ltac:(cbn [need]; lia) E1) as (cs' & Hmv & R').
        intros E; injection E as <- <-. cbn [c_w]. eauto.
      - destruct (get h t) as [u|] eqn:G; [|intros E; injection E as <- <-; apply (Hstay _ R (OpGrowZeroed h old new))].
        destruct (fitsb old u && req_okb psmax new && (l_size old <=? l_size new)) eqn:Ef; [|intros E; injection E as <- <-; apply (Hstay _ R (OpGrowZeroed h old new))].
        apply andb_true_iff in Ef. destruct Ef as [Ef E3]. apply andb_true_iff in Ef. destruct Ef as [Ef El]. apply fitsb_spec in Ef.
        destruct (Hof h u G) as (us & R1).
        unfold call. cbn [c_w c_tab]. unfold al_grow_zeroed, bind.
        destruct (al_allocate_zeroed (blink A dbg) new (ar, w)) as [r1 [ar1 w1]| | |] eqn:E1; try discriminate.
        destruct (alloc_any_shape cs ar w (u :: us) new true (need (OpGrowZeroed h old new)) r1 (ar1, w1) R1 Hm El ltac:(cbn [need]; lia) E1) as (cs' & Hmv & R').
        cbn [fst snd] in R'. destruct r1 as [b|]; cbn [ret].
        2:{ intros E; injection E as <- <-. cbn [c_w fst snd]. eauto. }
        unfold mcopy. destruct ((l_size old =? 0) || (u_ptr u + l_size old <=? b_ptr b) || (b_ptr b + l_size old <=? u_ptr u)); [|discriminate].
        cbn [blink al_set_mem al_mem fst snd al_deallocate].
        pose proof (ar_ok _ _ _ _ _ _ _ _ R') as Hk. inversion Hk as [|? ? Hb Hk']; subst. inversion Hk' as [|? ? Hu _]; subst.
        destruct Ef as [F1 F2].
        destruct (arep_own_write amax smax A own' Hct' cs' ar1 w1 (u :: us) [] (mku b new) (copy (al_mem A w1) (u_ptr u) (b_ptr b) (l_size old)) R') as [R2 _].
        { intros x Hx. apply copy_other. unfold in_u, mku in Hx. cbn [u_ptr u_len] in Hx. destruct Hb as ((_ & _ & G3 & _) & _).
          unfold ublk, mku in G3. cbn [b_ptr b_len u_ptr u_len u_layout] in G3. lia. }
        apply (arep_perm _ _ _ _ _ _ _ _ _ (perm_swap u (mku b new) us)) in R2.
        assert (0 <= l_size (u_layout u)) by apply Hu.
        pose proof (blink_deallocate_ok amax smax A own' Hct' Hamax [] cs' ar1 _ u (mku b new :: us) (l_size old) R2 ltac:(lia)) as H1. unfold wp in H1.
        destruct (blink_deallocate A (u_ptr u) (l_size old) _) as [[] [ar2 w2]| | |]; try contradiction.
        cbn [fst snd] in H1. destruct H1 as (-> & _ & _ & R3). cbn [ret]. intros E; injection E as <- <-. cbn [c_w fst snd]. eauto.
      - unfold bind, call. cbn [c_w c_tab]. unfold blink_reset.
        pose proof (arena_reset_keep_ok amax smax A own' Hct' [] cs ar w _ R) as H1. unfold wp in H1.
        destruct (arena_reset A true (ar, w)) as [u1 [ar1 w1]| | |]; try contradiction. destruct H1 as (_ & _ & H1). cbn [fst snd ret] in *.
        intros E; injection E as <- <-. cbn [c_w fst snd]. destruct cs as [|c cs0].
        + injection H1 as -> ->. exists [], (live t). split; [exact R|reflexivity].
        + eexists. eexists. split; [exact H1|]. reflexivity.
    Qed.
  End Call.

  (** ** What is known of a proxy: [used] bytes at most asked for since its last reset, [M]
      its minimum *)

  Definition tracked (used M : Z) (cs : list chunk) : Prop :=
    match cs with
    | [] => True
    | c :: r => (r <> [] -> M + 64 <= c_end c - c_base c) /\ (used <= M -> r = [] /\ c_cur c - c_base c <= used)
    end.
  Definition kept (used M : Z) (p : proxy) (m : mem) : Prop :=
    ar_min (px_arena p) = M /\ exists cs, shadow cs (px_arena p) m /\ tracked used M cs.

  Lemma kept_at used M p m cs : kept used M p m -> shadow cs (px_arena p) m -> tracked used M cs.
  Proof.
    intros (_ & cs0 & S0 & T) S1. destruct cs0 as [|c r].
    - destruct S0 as (_ & D & _), S1 as (_ & D' & _). destruct cs; [exact I|cbn in *; congruence].
    - destruct (shadow_head _ _ _ _ _ S0 S1) as (c' & r' & -> & L & P1 & P2 & P3). cbn [tracked] in *. unfold c_base in *. rewrite P1, P2, P3.
      destruct T as [T1 T2]. split.
      + intros Hr. apply T1. intros ->. destruct r'; [contradiction|discriminate].
      + intros Hu. destruct (T2 Hu) as [-> F]. split; [destruct r'; [reflexivity|discriminate]|exact F].
  Qed.
  Lemma tracked_more used n M cs : 0 <= n -> tracked used M cs -> tracked (used + n) M cs.
  Proof. intros Hn. destruct cs as [|c r]; [auto|]. intros [T1 T2]. split; [exact T1|]. intros Hu. destruct (T2 ltac:(lia)) as [-> F]. split; [reflexivity|lia]. Qed.

  Lemma tracked_moves used n M cs cs' : 0 <= used -> 0 <= n -> Forall (fun c => HDR + M <= u_len (c_u c)) cs ->
    moves n M cs cs' -> tracked used M cs -> tracked (used + n) M cs'.
  Proof.
    intros Hu Hn Hc Hm T. destruct cs' as [|c' r']; [exact I|]. cbn [moves] in Hm. destruct Hm as [(c & r & -> & Eu & Er & Ec)|(-> & Ec & Hm)].
    - cbn [tracked] in *. destruct T as [T1 T2]. unfold c_base, c_end, c_ptr in *. rewrite Eu. split.
      + intros Hr. apply T1. destruct Er as [<-| ->]; [exact Hr|contradiction].
      + intros Hle. destruct (T2 ltac:(lia)) as [-> F]. split; [destruct Er; assumption|lia].
    - cbn [tracked]. split.
      + intros Hr. destruct cs as [|c r]; [contradiction|]. destruct Hm as [Hm _]. unfold c_base, c_end, c_ptr, HDR in *. lia.
      + intros Hle. destruct cs as [|c r].
        * split; [reflexivity|lia].
        * exfalso. destruct Hm as [_ Hm]. destruct T as [_ T2]. destruct (T2 ltac:(lia)) as [_ F].
          apply Forall_inv in Hc. unfold c_base, c_end, c_ptr, HDR in *. lia.
  Qed.

  (** ** The operations of other proxies *)

  Lemma each_sub m P l S k p : each amax nmax m P l S -> get k l = Some p ->
    exists cs, lrep amax nmax cs (px_arena p) m (live (px_tab p)) /\ incl (map c_u cs) (allc P).
  Proof.
    intros E G. destruct (each_at _ _ _ _ _ _ _ _ E G) as (P1 & cs & P2 & l1 & l2 & S1 & t & S2 & -> & _ & _ & _ & _ & _ & _ & L & _).
    exists cs. split; [exact L|]. rewrite allc_app, allc_cons. intros u Hu. apply in_or_app. right. apply in_or_app. left. exact Hu.
  Qed.
  Lemma same_incl us us' m m' : incl us us' -> same_on us' m m' -> same_on us m m'.
  Proof. intros I S u x Hu. apply S. apply I. exact Hu. Qed.

  Lemma each_others m m' P1 l1 S1 P2 l2 S2 k j q p : each amax nmax m P1 l1 S1 -> each amax nmax m P2 l2 S2 ->
    length l1 = j -> k <> j -> get k (l1 ++ q :: l2) = Some p -> same_on (allc P1) m m' -> same_on (allc P2) m m' ->
    exists cs, lrep amax nmax cs (px_arena p) m (live (px_tab p)) /\ same_on (map c_u cs) m m'.
  Proof.
    intros E1 E2 <- Hk G H1 H2. unfold get in G. destruct (Nat.lt_total k (length l1)) as [Hl|[Hl|Hl]]; [|contradiction|].
    - rewrite nth_error_app1 in G by lia. destruct (each_sub _ _ _ _ k p E1 G) as (cs & L & I). exists cs. split; [exact L|]. apply (same_incl _ _ _ _ I H1).
    - rewrite nth_error_app2 in G by lia. destruct (k - length l1)%nat as [|i] eqn:Ei; [lia|]. cbn [nth_error] in G.
      destruct (each_sub _ _ _ _ i p E2 G) as (cs & L & I). exists cs. split; [exact L|]. apply (same_incl _ _ _ _ I H2).
  Qed.
  (** Nobody has written into the chunks of the proxy. *)
  Definition untouched (p : proxy) (m m' : mem) : Prop :=
    exists cs us, lrep amax nmax cs (px_arena p) m us /\ same_on (map c_u cs) m m'.
  Lemma kept_same used M p m m' cs us : lrep amax nmax cs (px_arena p) m us -> same_on (map c_u cs) m m' -> kept used M p m -> kept used M p m'.
  Proof.
    intros L S K. pose proof (kept_at _ _ _ _ _ K (lrep_shadow _ _ _ _ L)) as T. split; [apply K|]. exists cs. split; [|exact T].
    apply (lrep_shadow _ _ _ us). apply (lrep_same _ _ _ _ m); assumption.
  Qed.
  Lemma kept_untouched used M p m m' : untouched p m m' -> kept used M p m -> kept used M p m'.
  Proof. intros (cs & us & L & S). exact (kept_same used M p m m' cs us L S). Qed.
  Lemma get_other {T} (l1 l2 : list (option T)) q q' k : k <> length l1 -> get k (l1 ++ q :: l2) = get k (l1 ++ q' :: l2).
  Proof.
    intros Hk. unfold get. destruct (Nat.lt_total k (length l1)) as [Hl|[Hl|Hl]]; [|contradiction|].
    - rewrite !nth_error_app1 by lia. reflexivity.
    - rewrite !nth_error_app2 by lia. destruct (k - length l1)%nat as [|i] eqn:Ei; [lia|]. reflexivity.
  Qed.

  Notation pinv := (pinv amax nmax A own).

  (** [reset] and the drop of proxy [j]. *)
  Lemma finish_shape (keep : bool) s b j q : pinv s b -> get j (ps_prox s) = Some q ->
    wp (n <- on_proxy j (call (last_chunk_size A) (fun _ t => t)) ;; p_update n ;;;
        on_proxy j (call (arena_reset_leak A keep) (fun _ => map (fun _ => None)))) s
      (fun _ s' => exists l1 l2 q', length l1 = j /\ ps_prox s = l1 ++ Some q :: l2 /\ ps_prox s' = l1 ++ Some q' :: l2 /\
         (keep = false -> ar_root (px_arena q') = None) /\
         (forall k p, k <> j -> get k (ps_prox s) = Some p -> untouched p (al_mem A (ps_w s)) (al_mem A (ps_w s'))) /\
         (keep = true -> forall used M, kept used M q (al_mem A (ps_w s)) -> 0 <= M -> kept 0 M q' (al_mem A (ps_w s')))).
  Proof.
    intros H G.
    destruct (focus amax smax nmax A own Hct s b j q H G) as (P1 & cs & P2 & l1 & l2 & S1 & t & S2 & leak & E1 & E2 & L1 & L2 & X1 & X2 & L & At & Ho).
    apply wp_bind. apply (wp_on_proxy _ _ _ _ _ G). unfold wp, call. cbn [c_w c_tab].
    rewrite (last_size_ok _ _ A _ _ _ _ L). rewrite (put_split _ _ _ _ _ _ E1 L1). cbn [c_w c_tab fst snd].
    apply wp_bind. unfold p_update, wp. cbn [ps_max ps_prox ps_tab ps_w].
    set (mx := Z.max (ps_max s) (last_cap cs)).
    set (s1 := mkPst mx (l1 ++ Some (mkProxy (px_arena q) (px_tab q)) :: l2) (ps_tab s) (ps_w s)).
    assert (G1 : get j (ps_prox s1) = Some (mkProxy (px_arena q) (px_tab q))).
    { cbn [s1 ps_prox]. rewrite <- L1. apply get_mid. }
    fold s1. match goal with |- match ?X s1 with ORet a s' => ?Q | _ => _ end => change (wp X s1 (fun a s' => Q)) end.
    apply (wp_on_proxy _ _ _ _ _ G1). cbn [px_tab px_arena s1 ps_w]. apply call_ok. cbn [c_w c_tab].
    set (F := allc P1 ++ allc P2 ++ leak ++ live (ps_tab s)) in *.
    pose proof (lrep_arep amax nmax A own Htop cs _ _ _ _ L Ho) as R.
    eapply wp_mono; [apply (arena_reset_leak_ok amax smax A _ (contract_framed _ _ _ _ F (al_mem A (ps_w s)) Hct) keep [] cs (px_arena q) (ps_w s) _ R)|].
    intros _ [ar' w'] (_ & M1 & H1). cbn [fst snd] in *.
    rewrite (put_split _ s1 l1 l2 _ _ eq_refl L1). cbn [c_w c_tab fst snd s1 ps_max ps_tab ps_prox ps_w].
    exists l1, l2, (mkProxy ar' (map (fun _ => None) (px_tab q))). split; [exact L1|]. split; [exact E1|]. split; [reflexivity|].
    cbn [px_arena].
    assert (Hs : same_on F (al_mem A (ps_w s)) (al_mem A w')).
    { destruct keep.
      - destruct cs as [|c cs]; [injection H1 as _ ->; apply same_on_refl|]. destruct H1 as [_ R3]. apply (ar_own _ _ _ _ _ _ _ _ R3).
      - destruct H1 as [-> _]. apply same_on_refl. }
    unfold F in Hs. rewrite !same_on_app in Hs. destruct Hs as (Hs1 & Hs2 & _). split; [|split].
    - intros ->. destruct H1 as [_ R3]. apply (ar_head _ _ _ _ _ _ _ _ R3).
    - intros k p Hk Gk. rewrite E1 in Gk.
      destruct (each_others _ (al_mem A w') _ _ _ _ _ _ k j _ p X1 X2 L1 Hk Gk Hs1 Hs2) as (csk & Lk & Sk). exists csk. eexists. split; [exact Lk|exact Sk].
    - intros -> used M K HM. pose proof (kept_at _ _ _ _ _ K (lrep_shadow _ _ _ _ L)) as T. destruct K as [Km _].
      split; [cbn [px_arena]; congruence|]. destruct cs as [|c cs].
      + injection H1 as -> ->. exists []. split; [apply (lrep_shadow _ _ _ _ L)|exact I].
      + destruct H1 as [_ R3]. exists [set_cur c (c_base c)]. split; [apply (arep_shadow _ _ _ _ _ _ R3)|]. cbn [tracked]. split; [intros Hr; contradiction|].
        intros _. split; [reflexivity|]. cbn [set_cur c_cur]. unfold c_base, c_ptr. cbn [set_cur c_u]. lia.
  Qed.

  (** An operation of the client of proxy [j]. *)
  Lemma use_shape o s b j q : pinv s b -> get j (ps_prox s) = Some q ->
    match on_proxy j (step psmax (blink A dbg) (fun _ => blink_reset A) o) s with
    | ORet _ s' | OPanic s' => exists l1 l2 q', length l1 = j /\ ps_prox s = l1 ++ Some q :: l2 /\ ps_prox s' = l1 ++ Some q' :: l2 /\
         (forall k p, k <> j -> get k (ps_prox s) = Some p -> untouched p (al_mem A (ps_w s)) (al_mem A (ps_w s'))) /\
         (forall used M, kept used M q (al_mem A (ps_w s)) -> 0 <= used ->
            kept (match o with OpReset _ => 0 | _ => used + need o end) M q' (al_mem A (ps_w s')))
    | _ => True
    end.
  Proof.
    intros H G.
    destruct (focus amax smax nmax A own Hct s b j q H G) as (P1 & cs & P2 & l1 & l2 & S1 & t & S2 & leak & E1 & E2 & L1 & L2 & X1 & X2 & L & At & Ho).
    set (F := allc P1 ++ allc P2 ++ leak ++ live (ps_tab s)) in *.
    pose proof (lrep_arep amax nmax A own Htop cs _ _ _ _ L Ho) as R.
    pose proof (contract_framed _ _ _ _ F (al_mem A (ps_w s)) Hct) as Hct'.
    unfold on_proxy. rewrite G.
    pose proof (use_ok amax smax psmax nmax A Hamax dbg Hcfg _ (ar_min (px_arena q)) o (mkCst (px_tab q) (px_arena q, ps_w s)) t Hct' (lr_min _ _ _ _ _ _ L)) as U.
    assert (Hf : fine amax A (framed A own F (al_mem A (ps_w s))) (ar_min (px_arena q)) (mkCst (px_tab q) (px_arena q, ps_w s)) t).
    { exists cs. split; [exact R|]. split; [reflexivity|]. split; [|exact At].
      pose proof (lr_caps _ _ _ _ _ _ L) as Hc. rewrite Forall_forall in Hc |- *. intros u Hu. apply in_map_iff in Hu.
      destruct Hu as (c & <- & Hi). apply (Hc c Hi). }
    specialize (U Hf).
    assert (Hoth : forall m', same_on F (al_mem A (ps_w s)) m' ->
      forall k p, k <> j -> get k (ps_prox s) = Some p -> untouched p (al_mem A (ps_w s)) m').
    { intros m' Hs k p Hk Gk. unfold F in Hs. rewrite !same_on_app in Hs. destruct Hs as (Hs1 & Hs2 & _). rewrite E1 in Gk.
      destruct (each_others _ m' _ _ _ _ _ _ k j _ p X1 X2 L1 Hk Gk Hs1 Hs2) as (csk & Lk & Sk). exists csk. eexists. split; [exact Lk|exact Sk]. }
    destruct (step psmax (blink A dbg) (fun _ => blink_reset A) o (mkCst (px_tab q) (px_arena q, ps_w s))) as [r c'|c'| |] eqn:Es; auto.
    - destruct U as (cs1 & R1 & M1 & _).
      destruct (step_shape _ Hct' o cs (px_tab q) (px_arena q) (ps_w s) r c' R (proj2 (lr_min _ _ _ _ _ _ L)) Es) as (cs' & us' & R' & Hmv).
      rewrite (put_split _ _ _ _ _ _ E1 L1). cbn [ps_prox ps_w]. eexists l1, l2, _. split; [exact L1|]. split; [exact E1|]. split; [reflexivity|]. split.
      + apply Hoth. apply (ar_own _ _ _ _ _ _ _ _ R').
      + intros used M K Hu. pose proof (kept_at _ _ _ _ _ K (lrep_shadow _ _ _ _ L)) as T. destruct K as [Km _].
        split; [cbn [px_arena]; congruence|]. exists cs'. cbn [px_arena]. split; [apply (arep_shadow _ _ _ _ _ _ R')|].
        rewrite Km in Hmv. assert (Hgo : moves (need o) M cs cs' -> tracked (used + need o) M cs').
        { intros Hmv'. apply (tracked_moves used (need o) M cs cs' Hu (need_pos o)); auto. rewrite <- Km. apply (lr_caps _ _ _ _ _ _ L). }
        destruct o; try (apply Hgo; exact Hmv).
        destruct cs as [|c cs]; subst cs'; [exact I|]. cbn [tracked]. split; [intros Hr; contradiction|].
        intros _. split; [reflexivity|]. cbn [set_cur c_cur]. unfold c_base, c_ptr. cbn [set_cur c_u]. lia.
    - destruct U as (_ & (l & z & -> & _) & Et & Ea & Er & El & b1 & O' & S'). cbn [c_w c_tab fst snd] in *.
      rewrite (put_split _ _ _ _ _ _ E1 L1). cbn [ps_prox ps_w]. eexists l1, l2, _. split; [exact L1|]. split; [exact E1|]. split; [reflexivity|]. split.
      + apply Hoth. exact S'.
      + intros used M K Hu. split; [cbn [px_arena]; rewrite Ea; apply K|]. exists []. cbn [px_arena]. rewrite Ea. split; [|exact I].
        split; [exact Er|]. split; [|exact I]. rewrite (lr_count _ _ _ _ _ _ L).
        pose proof (lr_head _ _ _ _ _ _ L) as Xh. rewrite Er in Xh. destruct cs; [reflexivity|discriminate].
  Qed.

  Variable reset : bool -> M W unit.
  Hypothesis Hreset : forall k w us, own w us -> wp (reset k) w (fun _ w' => own w' []).
  Notation pstep := (pstep A dbg reset smax psmax nmax).

  (** An operation on the shared allocator. *)
  Lemma shared_shape o s b r s' : pinv s b -> (forall k, o = OpReset k -> forallb is_none (ps_prox s) = true) ->
    on_shared (step smax A reset o) s = ORet r s' ->
    ps_prox s' = ps_prox s /\
    forall k p, get k (ps_prox s) = Some p -> untouched p (al_mem A (ps_w s)) (al_mem A (ps_w s')).
  Proof.
    intros [Hx Ht (P & leak & Ho & E)] Hno Es.
    assert (Hp : ps_prox s' = ps_prox s).
    { unfold on_shared in Es. destruct (step smax A reset o (mkCst (ps_tab s) (ps_w s))); try discriminate Es. injection Es as _ <-. reflexivity. }
    split; [exact Hp|]. intros k p G.
    assert (Hd : forall k, o <> OpReset k).
    { intros k0 Ek. specialize (Hno k0 Ek). rewrite forallb_forall in Hno. unfold get in G.
      destruct (nth_error (ps_prox s) k) as [[q|]|] eqn:N; try discriminate. apply nth_error_In in N. apply Hno in N. discriminate. }
    set (F := allc P ++ leak).
    pose proof (step_any amax smax A _ reset (contract_framed _ _ _ _ F (al_mem A (ps_w s)) Hct) o (mkCst (ps_tab s) (ps_w s)) (sp_tab b)) as Hw.
    assert (Hw' : wp (step smax A reset o) (mkCst (ps_tab s) (ps_w s))
      (fun r st' => hinv A (framed A own F (al_mem A (ps_w s))) st' (sstep o (option_map b_len r) (sp_tab b)))).
    { apply Hw; [intros k0 Ek; destruct (Hd k0 Ek)|]. split; [|exact Ht]. split; [|apply same_on_refl]. cbn [c_w c_tab].
      apply (ct_perm _ _ _ _ Hct _ _ _ Ho). unfold F. rewrite app_assoc. apply Permutation_app_comm. }
    unfold wp in Hw'. unfold on_shared in Es. destruct (step smax A reset o (mkCst (ps_tab s) (ps_w s))) as [r1 c'| | |]; try contradiction.
    injection Es as _ <-. cbn [ps_w]. destruct Hw' as [[_ S'] _]. unfold F in S'. apply same_on_app in S'.
    destruct (each_sub _ _ _ _ k p E G) as (cs & L & I). exists cs. eexists. split; [exact L|]. apply (same_incl _ _ _ _ I (proj1 S')).
  Qed.

  (** Each operation. *)
  Lemma pstep_kept o s b r s' k p used M : pinv s b -> pstep o s = ORet r s' -> get k (ps_prox s) = Some p ->
    kept used M p (al_mem A (ps_w s)) -> 0 <= used -> 0 <= M ->
    match get k (ps_prox s') with Some p' => kept (used_by k used o) M p' (al_mem A (ps_w s')) | None => True end.
  Proof.
    intros H E G K Hu HM.
    match goal with E : ?X = _ |- _ => change X with (pstep_at A dbg reset smax psmax nmax o (ps_prox s) s) in E end. unfold pstep_at in E.
    assert (Hstay : forall u', used <= u' -> match get k (ps_prox s) with Some p' => kept u' M p' (al_mem A (ps_w s)) | None => True end).
    { intros u' Hu'. rewrite G. destruct K as (Km & cs & Sc & T). split; [exact Km|]. exists cs. split; [exact Sc|].
      replace u' with (used + (u' - used)) by lia. apply tracked_more; [lia|exact T]. }
    destruct o as [|j|j|n|[j|] o]; cbn [used_by].
    - unfold caught, p_local in E. injection E as _ <-. cbn [ps_prox ps_w].
      assert (Hk : (k < length (ps_prox s))%nat) by (unfold get in G; apply nth_error_Some; destruct (nth_error (ps_prox s) k); [discriminate|discriminate]).
      unfold get. rewrite nth_error_app1 by exact Hk. apply (Hstay used). lia.
    - destruct (alive j (ps_prox s)) eqn:Al; [|injection E as _ <-; apply Hstay; lia].
      unfold alive in Al. destruct (get j (ps_prox s)) as [q|] eqn:Gj; [|discriminate].
      pose proof (finish_shape false s b j q H Gj) as Hf. apply wp_inv in Hf.
      destruct Hf as (u & s1 & Ef & l1 & l2 & q' & L1 & E1 & E2 & Hroot & Hoth & _).
      assert (Ed : p_drop A dbg j s = ORet tt (mkPst (ps_max s1) (l1 ++ None :: l2) (ps_tab s1) (ps_w s1))).
      { unfold p_drop, bind in *. destruct (on_proxy j (call (last_chunk_size A) (fun _ t => t)) s) as [n s0| | |]; try discriminate Ef.
        unfold p_update in *.
        destruct (on_proxy j (call (arena_reset_leak A false) (fun _ => map (fun _ => None)))
          (mkPst (Z.max (ps_max s0) n) (ps_prox s0) (ps_tab s0) (ps_w s0))) as [u' s2| | |]; try discriminate Ef.
        injection Ef as -> ->. unfold on_proxy. rewrite E2, <- L1, get_mid. unfold call. cbn [c_w c_tab fst snd].
        rewrite (Hroot eq_refl). unfold debug_assert. rewrite andb_false_r. cbn [ret fst snd].
        unfold put. cbn [ps_max ps_prox ps_tab ps_w fst snd c_w c_tab]. rewrite E2, !set_nth_split. reflexivity. }
      unfold caught in E. rewrite Ed in E. injection E as _ <-. cbn [ps_prox ps_w].
      destruct (Nat.eq_dec k j) as [->|Hk].
      + rewrite <- L1, get_mid_none. exact I.
      + rewrite (get_other l1 l2 None (Some q)) by congruence. rewrite <- E1, G. apply (kept_untouched used M _ _ _ (Hoth k p Hk G) K).
    - destruct (alive j (ps_prox s)) eqn:Al.
      2:{ injection E as _ <-. unfold alive in Al. destruct (Nat.eqb_spec j k) as [->|Hk]; [rewrite G in Al; discriminate|apply Hstay; lia]. }
      unfold alive in Al. destruct (get j (ps_prox s)) as [q|] eqn:Gj; [|discriminate].
      pose proof (finish_shape true s b j q H Gj) as Hf. apply wp_inv in Hf.
      destruct Hf as (u & s1 & Ef & l1 & l2 & q' & L1 & E1 & E2 & _ & Hoth & Hme).
      unfold caught, p_reset in E. rewrite Ef in E. injection E as _ <-. rewrite E2.
      destruct (Nat.eqb_spec j k) as [->|Hk].
      + rewrite <- L1, get_mid. rewrite Gj in G. injection G as ->. apply (Hme eq_refl used M K HM).
      + rewrite (get_other l1 l2 (Some q') (Some q)) by congruence. rewrite <- E1, G. apply (kept_untouched used M _ _ _ (Hoth k p (not_eq_sym Hk) G) K).
    - destruct ((0 <=? n) && (n <=? nmax)); [|injection E as _ <-; apply Hstay; lia].
      unfold caught, p_update in E. injection E as _ <-. cbn [ps_prox ps_w]. apply Hstay. lia.
    - destruct (alive j (ps_prox s)) eqn:Al.
      2:{ injection E as _ <-. unfold alive in Al. destruct (Nat.eqb_spec j k) as [->|Hk]; [rewrite G in Al; discriminate|].
          destruct o; apply Hstay; lia. }
      unfold alive in Al. destruct (get j (ps_prox s)) as [q|] eqn:Gj; [|discriminate].
      pose proof (use_shape o s b j q H Gj) as U. unfold caught in E.
      assert (Hgo : exists l1 l2 q', length l1 = j /\ ps_prox s = l1 ++ Some q :: l2 /\ ps_prox s' = l1 ++ Some q' :: l2 /\
         (forall k p, k <> j -> get k (ps_prox s) = Some p -> untouched p (al_mem A (ps_w s)) (al_mem A (ps_w s'))) /\
         (forall used M, kept used M q (al_mem A (ps_w s)) -> 0 <= used ->
            kept (match o with OpReset _ => 0 | _ => used + need o end) M q' (al_mem A (ps_w s')))).
      { destruct (on_proxy j (step psmax (blink A dbg) (fun _ => blink_reset A) o) s) as [r1 s1|s1| |]; try discriminate E; injection E as _ <-; exact U. }
      destruct Hgo as (l1 & l2 & q' & L1 & E1 & E2 & Hoth & Hme). rewrite E2.
      destruct (Nat.eqb_spec j k) as [->|Hk].
      + rewrite <- L1, get_mid. rewrite Gj in G. injection G as ->. specialize (Hme used M K Hu). destruct o; exact Hme.
      + rewrite (get_other l1 l2 (Some q') (Some q)) by congruence. rewrite <- E1, G. destruct o; apply (kept_untouched used M _ _ _ (Hoth k p (not_eq_sym Hk) G) K).
    - destruct (match o with OpReset _ => forallb is_none (ps_prox s) | _ => true end) eqn:En; [|injection E as _ <-; apply Hstay; lia].
      unfold caught in E. destruct (on_shared (step smax A reset o) s) as [r1 s1|s1| |] eqn:Es; try discriminate E.
      + injection E as _ <-. destruct (shared_shape o s b r1 s1 H ltac:(intros k0 ->; exact En) Es) as [Ep Hk]. rewrite Ep, G. apply (kept_untouched used M _ _ _ (Hk k p G) K).
      + exfalso. pose proof (use_shared_ok amax smax nmax A own Hct reset Hreset o s b H ltac:(intros k0 ->; exact En)) as Hw. unfold wp in Hw. rewrite Es in Hw. exact Hw.
  Qed.
End Shapes.

(** ** Histories *)

Section Warm.
  Variable su : setup.
  Variable psmax nmax : Z.
  Hypothesis Hok : proxies_ok su psmax nmax.
  Notation run os := (proxy_run su psmax nmax os).
  Notation state := (pst (W := AW (W := bworld))).
  Notation pinv := (pinv (su_amax su) nmax (ba su) (sown su)).
  Notation memory s := (al_mem (ba su) (ps_w s)).
  Notation Hct := (ba_contract su (psu su psmax nmax Hok)).

  Lemma used_pos k os : forall n, 0 <= n -> 0 <= fold_left (used_by k) os n.
  Proof.
    induction os as [|o os IH]; intros n Hn; cbn [fold_left]; [exact Hn|]. apply IH.
    destruct o as [|j|j|m|[j|] o]; cbn [used_by]; try exact Hn.
    - destruct (j =? k)%nat; lia.
    - pose proof (need_pos o). destruct o; destruct (j =? k)%nat; lia.
  Qed.

  Lemma run_kept os : forall (s : state) b rs s' k used M, pinv s b -> run os s = ORet rs s' ->
    (k < length (ps_prox s))%nat ->
    match get k (ps_prox s) with Some p => kept used M p (memory s) | None => True end -> 0 <= used -> 0 <= M ->
    match get k (ps_prox s') with Some p' => kept (fold_left (used_by k) os used) M p' (memory s') | None => True end.
  Proof.
    induction os as [|o os IH]; intros s b rs s' k used M H E Hk K Hu HM.
    - unfold proxy_run in E. cbn in E. injection E as _ <-. exact K.
    - apply run_cons in E. destruct E as (r & rs' & s1 & E1 & E2 & _). cbn [fold_left].
      pose proof (pstep_ok (su_amax su) (su_smax su) psmax nmax (ba su) (sown su) Hct (pamax su psmax nmax Hok) (su_dbg su) (do_reset su)
        (ba_reset su (psu su psmax nmax Hok)) (ptop su psmax nmax Hok) (pcfg su psmax nmax Hok) o s b H) as Hs. unfold wp in Hs. rewrite E1 in Hs.
      destruct Hs as (H1 & (_ & Hlen & Hg) & _).
      apply (IH s1 _ rs' s' k _ M H1 E2).
      + lia.
      + specialize (Hg k Hk). destruct (get k (ps_prox s1)) as [p1|] eqn:G1; [|exact I]. destruct Hg as (p & G & _). rewrite G in K.
        pose proof (pstep_kept (su_amax su) (su_smax su) psmax nmax (ba su) (sown su) Hct (pamax su psmax nmax Hok) (su_dbg su)
          (ptop su psmax nmax Hok) (pcfg su psmax nmax Hok) (do_reset su) (ba_reset su (psu su psmax nmax Hok)) o s b r s1 k p used M H E1 G K Hu HM) as X.
        rewrite G1 in X. exact X.
      + apply (used_pos k [o]). exact Hu.
      + exact HM.
  Qed.

  (** A proxy is made in [s1] and used in [os2]. *)
  Lemma made_kept os1 rs1 s1 os2 rs2 s2 : run os1 (proxy_start su) = ORet rs1 s1 -> run (PLocal :: os2) s1 = ORet rs2 s2 ->
    (exists b, pinv s2 b) /\ ps_max s1 <= ps_max s2 /\
    match get (length (ps_prox s1)) (ps_prox s2) with
    | Some p => kept (since_reset (length (ps_prox s1)) os2) (ps_max s1) p (memory s2)
    | None => True
    end.
  Proof.
    intros E1 E2. destruct (proxy_run_inv su psmax nmax Hok os1 _ _ (proxy_start_inv su psmax nmax Hok)) as (rs' & s' & E & _ & I1 & _).
    rewrite E in E1. injection E1 as -> ->.
    apply run_cons in E2. destruct E2 as (r & rs2' & s1' & F1 & F2 & _).
    pose proof (pstep_ok (su_amax su) (su_smax su) psmax nmax (ba su) (sown su) Hct (pamax su psmax nmax Hok) (su_dbg su) (do_reset su)
        (ba_reset su (psu su psmax nmax Hok)) (ptop su psmax nmax Hok) (pcfg su psmax nmax Hok) PLocal s1 _ I1) as Hs. unfold wp in Hs. rewrite F1 in Hs.
    destruct Hs as (I2 & (Hm & _) & _).
    destruct (proxy_run_inv su psmax nmax Hok os2 _ _ I2) as (rs3 & s3 & E3 & _ & I3 & (Hm3 & _) & _).
    rewrite F2 in E3. injection E3 as <- <-. split; [eexists; exact I3|]. split; [lia|].
    apply (run_kept os2 s1' _ rs2' s2 (length (ps_prox s1)) 0 (ps_max s1) I2 F2).
    - unfold pstep, pstep_at, caught, p_local in F1. injection F1 as _ <-. cbn [ps_prox]. rewrite app_length. cbn [length]. lia.
    - unfold pstep, pstep_at, caught, p_local in F1. injection F1 as _ <-. cbn [ps_prox ps_w]. rewrite get_mid.
      split; [reflexivity|]. exists []. split; [|exact I]. repeat split.
    - lia.
    - apply I1.
  Qed.

  Lemma several_kept s b k p used M : pinv s b -> get k (ps_prox s) = Some p -> kept used M p (memory s) -> several (ba su) s k ->
    M < used /\ exists c, last_capacity (ba su) s k = Some c /\ M + 64 <= c.
  Proof.
    intros H G K (p' & r & q & G' & Er & El & Hq). rewrite G in G'. injection G' as <-.
    destruct (focus (su_amax su) (su_smax su) nmax (ba su) (sown su) Hct s b k p H G) as (P1 & cs & P2 & l1 & l2 & S1 & t & S2 & leak & _ & _ & _ & _ & _ & _ & L & _).
    pose proof (kept_at (su_amax su) nmax _ _ _ _ _ K (lrep_shadow _ _ _ _ _ _ L)) as T.
    pose proof (lr_head _ _ _ _ _ _ L) as Hh. pose proof (lr_chain _ _ _ _ _ _ L) as Hc. rewrite Er in Hh.
    destruct cs as [|c cs]; [discriminate|]. cbn [head_ptr] in Hh. injection Hh as ->. cbn [chain] in Hc. destruct Hc as (_ & (_ & X2 & X3 & _) & _).
    unfold PREV in X3. rewrite El in X3. injection X3 as ->. destruct cs as [|c1 cs]; [cbn in Hq; contradiction|].
    destruct T as [T1 T2]. split.
    - destruct (Z_lt_le_dec M used); [assumption|]. destruct (T2 l). discriminate.
    - unfold last_capacity. rewrite G, Er. unfold END in X2. rewrite X2. eexists. split; [reflexivity|].
      specialize (T1 ltac:(discriminate)). unfold c_base, HDR in T1. lia.
  Qed.

  (** A recorded size that covers what the work on the proxy needs makes one chunk enough. *)
  Theorem enough os1 rs1 s1 os2 rs2 s2 : run os1 (proxy_start su) = ORet rs1 s1 -> run (PLocal :: os2) s1 = ORet rs2 s2 ->
    since_reset (length (ps_prox s1)) os2 <= ps_max s1 -> ~ several (ba su) s2 (length (ps_prox s1)).
  Proof.
    intros E1 E2 Hn Hs. destruct (made_kept _ _ _ _ _ _ E1 E2) as ((b & H) & _ & K). pose proof Hs as (p & _ & _ & G & _).
    rewrite G in K. destruct (several_kept _ _ _ _ _ _ H G K Hs). lia.
  Qed.

  (** A proxy that was not enough raises the recorded size, by 64 bytes at least. *)
  Theorem raised os1 rs1 s1 os2 rs2 s2 fin os3 rs3 s3 : run os1 (proxy_start su) = ORet rs1 s1 -> run (PLocal :: os2) s1 = ORet rs2 s2 ->
    several (ba su) s2 (length (ps_prox s1)) -> fin = PDrop (length (ps_prox s1)) \/ fin = PReset (length (ps_prox s1)) ->
    run (fin :: os3) s2 = ORet rs3 s3 -> ps_max s1 + 64 <= ps_max s3.
  Proof.
    intros E1 E2 Hs Hf E3. destruct (made_kept _ _ _ _ _ _ E1 E2) as ((b & H) & _ & K). pose proof Hs as (p & _ & _ & G & _).
    rewrite G in K. destruct (several_kept _ _ _ _ _ _ H G K Hs) as (_ & c & Hc & Hle).
    apply run_cons in E3. destruct E3 as (r & rs' & s2' & F1 & F2 & _).
    pose proof (pstep_ok (su_amax su) (su_smax su) psmax nmax (ba su) (sown su) Hct (pamax su psmax nmax Hok) (su_dbg su) (do_reset su)
        (ba_reset su (psu su psmax nmax Hok)) (ptop su psmax nmax Hok) (pcfg su psmax nmax Hok) fin s2 b H) as Hst. unfold wp in Hst. rewrite F1 in Hst.
    destruct Hst as (H2 & _ & Hcap & _). specialize (Hcap _ c Hf Hc).
    destruct (proxy_run_inv su psmax nmax Hok os3 _ _ H2) as (rs4 & s4 & E4 & _ & _ & (Hm & _) & _). rewrite F2 in E4. injection E4 as <- <-. lia.
  Qed.

  (** Rounds of work, each after the other: something happens; a proxy is made and used, and
      what it is asked for needs [N] bytes at most; still it holds several chunks in the end,
      and is dropped or reset; something happens. *)
  Definition round : Type := list pop * list pop * pop * list pop.
  Fixpoint outgrown (N : Z) (rounds : list round) (s : state) : Prop :=
    match rounds with
    | [] => True
    | (before, work, fin, after) :: rest => exists rs1 s1 rs2 s2 rs3 s3,
        run before s = ORet rs1 s1 /\ run (PLocal :: work) s1 = ORet rs2 s2 /\
        since_reset (length (ps_prox s1)) work <= N /\ several (ba su) s2 (length (ps_prox s1)) /\
        (fin = PDrop (length (ps_prox s1)) \/ fin = PReset (length (ps_prox s1))) /\
        run (fin :: after) s2 = ORet rs3 s3 /\ outgrown N rest s3
    end.

  Lemma run_app os1 : forall os2 (s : state) rs1 s1 rs2 s2, run os1 s = ORet rs1 s1 -> run os2 s1 = ORet rs2 s2 ->
    run (os1 ++ os2) s = ORet (rs1 ++ rs2) s2.
  Proof.
    induction os1 as [|o os1 IH]; intros os2 s rs1 s1 rs2 s2 E1 E2.
    - unfold proxy_run in E1. cbn in E1. injection E1 as <- <-. exact E2.
    - apply run_cons in E1. destruct E1 as (r & rs' & s' & F1 & F2 & ->). specialize (IH _ _ _ _ _ _ F2 E2).
      unfold proxy_run in *. cbn [app prun]. unfold bind. rewrite F1, IH. reflexivity.
  Qed.

  Lemma outgrown_bound N rounds : forall os rs s, run os (proxy_start su) = ORet rs s -> outgrown N rounds s -> rounds <> [] ->
    ps_max s + 64 * (Z.of_nat (length rounds) - 1) < N.
  Proof.
    induction rounds as [|(((bef, work), fin), aft) rest IH]; intros os rs s E H Hne; [contradiction|]. clear Hne.
    destruct H as (rs1 & s1 & rs2 & s2 & rs3 & s3 & E1 & E2 & Hn & Hs & Hf & E3 & H).
    pose proof (run_app _ _ _ _ _ _ _ E E1) as A1. pose proof (run_app _ _ _ _ _ _ _ A1 E2) as A2. pose proof (run_app _ _ _ _ _ _ _ A2 E3) as A3.
    pose proof (recorded_grows su psmax nmax Hok _ _ _ _ _ _ E E1) as G1.
    pose proof (raised _ _ _ _ _ _ _ _ _ _ A1 E2 Hs Hf E3) as G2.
    assert (G3 : ps_max s1 < N).
    { destruct (Z_lt_le_dec (ps_max s1) N) as [|L]; [assumption|]. exfalso. apply (enough _ _ _ _ _ _ A1 E2 ltac:(lia) Hs). }
    cbn [length]. destruct rest as [|r0 rest]; [cbn [length]; lia|].
    specialize (IH _ _ _ A3 H ltac:(discriminate)). cbn [length] in *. lia.
  Qed.

  (** So only so many rounds need more than one chunk. *)
  Theorem outgrown_few N rounds : 0 <= N -> outgrown N rounds (proxy_start su) -> 64 * Z.of_nat (length rounds) < N + 64.
  Proof.
    intros HN H. destruct rounds as [|r0 rest]; [cbn; lia|].
    assert (E0 : run [] (proxy_start su) = ORet [] (proxy_start su)) by reflexivity.
    pose proof (outgrown_bound N (r0 :: rest) [] [] _ E0 H ltac:(discriminate)) as B.
    assert (0 <= ps_max (proxy_start su)) by (cbn; lia). lia.
  Qed.
End Warm.
