(** The global allocators: documented-legal histories behave as independent buffers. *)
From Coq Require Import Permutation.
From Verif Require Import Base BaseFacts Alloc AllocFacts Arena ArenaFacts ArenaInv ArenaOps BlinkAlloc BlinkFacts
  History HistoryFacts Frame Global.

Notation gtab := (list (option (bool * ublock))).

(** The live blocks allocated in blink mode ([true]) or direct mode ([false]). *)
Definition part (bk : bool) (t : gtab) : list ublock :=
  map snd (filter (fun x => Bool.eqb (fst x) bk) (live t)).
Definition both (t : gtab) : list ublock := part true t ++ part false t.

Lemma part_app bk t t' : part bk (t ++ t') = part bk t ++ part bk t'.
Proof. unfold part. rewrite live_app, filter_app, map_app. reflexivity. Qed.
Lemma part_mid_same bk u t1 t2 : Permutation (part bk (t1 ++ Some (bk, u) :: t2)) (u :: part bk (t1 ++ t2)).
Proof.
  rewrite !part_app. replace (part bk (Some (bk, u) :: t2)) with (u :: part bk t2).
  - symmetry. apply Permutation_middle.
  - unfold part. cbn [live filter fst]. rewrite eqb_reflx. reflexivity.
Qed.
Lemma part_mid_other bk u t1 t2 : part (negb bk) (t1 ++ Some (bk, u) :: t2) = part (negb bk) (t1 ++ t2).
Proof. rewrite !part_app. f_equal. unfold part. cbn [live filter fst]. destruct bk; reflexivity. Qed.
Lemma part_mid_none bk t1 t2 : part bk (t1 ++ None :: t2) = part bk (t1 ++ t2).
Proof. rewrite !part_app. reflexivity. Qed.
Lemma part_in bk u t : In u (part bk t) <-> exists h, get h t = Some (bk, u).
Proof.
  unfold part. rewrite in_map_iff. split.
  - intros ([b v] & E & H). cbn in E. subst v. apply filter_In in H. destruct H as [H E]. cbn in E. apply eqb_prop in E. subst b.
    apply live_in in H. exact H.
  - intros [h H]. exists (bk, u). split; [reflexivity|]. apply filter_In. split; [apply live_in; eauto|]. apply eqb_reflx.
Qed.
Lemma part_reset_true t : part true (map not_blink t) = [].
Proof. induction t as [|[[[|] u]|] t IH]; cbn [map not_blink]; auto. Qed.
Lemma part_reset_false t : part false (map not_blink t) = part false t.
Proof.
  induction t as [|[[[|] u]|] t IH]; cbn [map not_blink]; auto.
  unfold part in *. cbn [live filter fst map Bool.eqb]. f_equal. exact IH.
Qed.
Lemma both_in u t : In u (both t) <-> exists bk h, get h t = Some (bk, u).
Proof.
  unfold both. rewrite in_app_iff, !part_in. split.
  - intros [[h H]|[h H]]; eauto.
  - intros ([|] & h & H); eauto.
Qed.
Lemma both_incl_mid bk u t1 t2 : incl (both (t1 ++ t2)) (both (t1 ++ Some (bk, u) :: t2)).
Proof.
  intros v Hv. unfold both in *. apply in_app_iff in Hv. apply in_app_iff.
  rewrite !part_app in *. rewrite !in_app_iff in *.
  assert (H : forall b, In v (part b t2) -> In v (part b (Some (bk, u) :: t2))).
  { intros b Hb. unfold part in *. cbn [live filter]. destruct (Bool.eqb _ b); [right; exact Hb|exact Hb]. }
  destruct Hv as [[Hv|Hv]|[Hv|Hv]]; auto.
Qed.

Definition is_nil {T} (l : list T) : bool := match l with [] => true | _ => false end.

Lemma write_cells_in m a cs i : 0 <= i < Z.of_nat (length cs) -> write_cells m a cs (a + i) = nth (Z.to_nat i) cs Undef.
Proof.
  intros H. unfold write_cells. replace ((a <=? a + i) && (a + i <? a + Z.of_nat (length cs))) with true by lia.
  replace (a + i - a) with i by lia. reflexivity.
Qed.

Section Global.
  Context {W : Type} (amax smax smax' : Z) (A : Allocator W) (own : W -> list ublock -> Prop).
  Hypothesis Hct : contract amax smax' A own.
  Hypothesis Hamax : 0 <= amax <= USIZE_MAX.
  Variable dbg sync : bool.
  Variable min : Z.
  Hypothesis Hmin : 0 <= min <= USIZE_MAX.
  Hypothesis Hcfg : cfg_ok dbg amax smax min smax'.
  Hypothesis Hss : smax <= smax'.
  Variable may : Z -> Z -> bool.
  Hypothesis Hmay : forall u old new, fits old u -> req_ok smax' new -> may (l_size old) (l_size new) = true ->
    resizes amax A own (if l_size new <=? l_size old then al_grow A (u_ptr u) old new else al_shrink A (u_ptr u) old new) u old new.

  Notation amem aw := (al_mem A (snd aw)).
  Definition has (t : gtab) (aw : AW (W := W)) : Prop := serves amax A own min (part false t) aw (part true t).

  Lemma req_smaller l : req_okb smax l = true -> req_ok smax l /\ req_ok smax' l.
  Proof. intros H. unfold req_ok, req_okb in *. rewrite !andb_true_iff in *. lia. Qed.

  Lemma has_block t aw h bk u : has t aw -> get h t = Some (bk, u) -> u_ok amax u.
  Proof.
    intros H G. destruct (serves_wf amax smax' A own Hct _ _ _ _ H) as [O _]. rewrite Forall_forall in O. apply O.
    apply (both_in u t). eauto.
  Qed.

  (** The calls, in the mode of the block. *)
  Lemma st_alloc_ok on t aw l (z : bool) : has t aw -> req_okb smax l = true ->
    wp (if z then st_allocate_zeroed A dbg on l else st_allocate A dbg on l) aw (fun r aw' =>
      same_on (both t) (amem aw) (amem aw') /\
      match r with
      | None => has t aw'
      | Some b => good_block amax l b /\ has (t ++ [Some (on, mkU (b_ptr b) (b_len b) l)]) aw' /\
          (z = true -> forall i, 0 <= i < b_len b -> amem aw' (b_ptr b + i) = Byte 0)
      end).
  Proof.
    intros H Hl. destruct (req_smaller l Hl) as [L1 L2].
    assert (E : (if z then st_allocate_zeroed A dbg on l else st_allocate A dbg on l) =
                (if on then (if z then al_allocate_zeroed (blink A dbg) l else al_allocate (blink A dbg) l)
                 else inner (if z then al_allocate_zeroed A l else al_allocate A l))) by (destruct z, on; reflexivity).
    rewrite E. clear E. destruct on.
    - eapply wp_mono; [apply (serves_alloc amax smax smax' A own Hct Hamax dbg min _ aw _ l z (cfg_ok_for Hcfg) H L1)|].
      intros r aw' [S1 R]. split; [exact S1|]. destruct r as [b|]; [|exact R]. destruct R as (G & _ & R & Z1).
      split; [exact G|]. split; [|exact Z1]. unfold has.
      eapply serves_perm; [exact Hct| | |exact R].
      + rewrite part_app. cbn. rewrite app_nil_r. reflexivity.
      + rewrite part_app. cbn. apply Permutation_cons_append.
    - eapply wp_mono; [apply (others_alloc amax smax' A own Hct min _ aw _ l z H L2)|].
      intros r aw' [S1 R]. split; [exact S1|]. destruct r as [b|]; [|exact R]. destruct R as (G & R & Z1).
      split; [exact G|]. split; [|exact Z1]. unfold has.
      eapply serves_perm; [exact Hct| | |exact R].
      + rewrite part_app. cbn. apply Permutation_cons_append.
      + rewrite part_app. cbn. rewrite app_nil_r. reflexivity.
  Qed.

  Lemma has_mid bk u t1 t2 aw : has (t1 ++ Some (bk, u) :: t2) aw <->
    serves amax A own min (if bk then part false (t1 ++ t2) else u :: part false (t1 ++ t2)) aw
                          (if bk then u :: part true (t1 ++ t2) else part true (t1 ++ t2)).
  Proof.
    unfold has. destruct bk.
    - pose proof (part_mid_other true u t1 t2) as E. cbn [negb] in E. rewrite E.
      split; eapply serves_perm; eauto; [|symmetry]; apply part_mid_same.
    - pose proof (part_mid_other false u t1 t2) as E. cbn [negb] in E. rewrite E.
      split; eapply serves_perm; eauto; [|symmetry]; apply part_mid_same.
  Qed.

  Lemma st_dealloc_ok on u t1 t2 aw : has (t1 ++ Some (on, u) :: t2) aw ->
    wp (st_deallocate A on (u_ptr u) (u_layout u)) aw (fun _ aw' =>
      same_on (both (t1 ++ t2)) (amem aw) (amem aw') /\ has (t1 ++ None :: t2) aw').
  Proof.
    intros H. assert (Hu : u_ok amax u).
    { apply (has_block _ _ (length t1) on u H). apply get_mid. }
    destruct Hu as ((_ & _ & G3 & _) & _ & G5). unfold ublk in G3. cbn [b_len] in G3.
    unfold has. rewrite !part_mid_none. apply has_mid in H. unfold st_deallocate. destruct on.
    - eapply wp_mono; [apply (serves_dealloc amax smax' A own Hct Hamax min _ aw u _ (l_size (u_layout u)) H); lia|]. auto.
    - apply (others_dealloc amax smax' A own Hct min _ aw u _ (u_layout u) H). split; [reflexivity|lia].
  Qed.

  Lemma st_resize_ok on u t1 t2 aw new : has (t1 ++ Some (on, u) :: t2) aw -> req_okb smax new = true ->
    (on || may (l_size (u_layout u)) (l_size new) = true) ->
    wp (st_resize A dbg on (u_ptr u) (u_layout u) new) aw (fun r aw' =>
      same_on (both (t1 ++ t2)) (amem aw) (amem aw') /\
      match r with
      | None => same_on [u] (amem aw) (amem aw') /\ has (t1 ++ Some (on, u) :: t2) aw'
      | Some b => good_block amax new b /\ has (t1 ++ Some (on, mkU (b_ptr b) (b_len b) new) :: t2) aw' /\
          forall i, 0 <= i < Z.min (l_size (u_layout u)) (l_size new) -> amem aw' (b_ptr b + i) = amem aw (u_ptr u + i)
      end).
  Proof.
    intros H Hl Hm. destruct (req_smaller new Hl) as [L1 L2]. assert (Hu : u_ok amax u).
    { apply (has_block _ _ (length t1) on u H). apply get_mid. }
    destruct Hu as ((_ & _ & G3 & _) & _ & G5). unfold ublk in G3. cbn [b_len] in G3.
    assert (Hf : fits (u_layout u) u) by (split; [reflexivity|lia]).
    apply has_mid in H. unfold st_resize. destruct on.
    - eapply wp_mono; [apply (serves_resize amax smax smax' A own Hct Hamax dbg min _ aw u _ (u_layout u) new (cfg_ok_lax Hcfg) H Hf L1)|].
      intros r aw' [S1 R]. split; [exact S1|]. destruct r as [b|].
      + destruct R as (G & R & C). split; [exact G|]. split; [|intros i Hi; apply C; lia].
        apply has_mid. exact R.
      + destruct R as [S2 R]. split; [exact S2|]. apply has_mid. exact R.
    - cbn [orb] in Hm.
      eapply wp_mono; [apply (others_resize amax smax' A own Hct min _ aw u _ _ (u_layout u) new H (Hmay u _ _ Hf L2 Hm))|].
      intros r aw' [S1 R]. split; [exact S1|]. destruct r as [b|].
      + destruct R as (G & R & C). split; [exact G|]. split; [|exact C]. apply has_mid. exact R.
      + destruct R as [S2 R]. split; [exact S2|]. apply has_mid. exact R.
  Qed.

  Lemma has_write bk u t1 t2 aw m : has (t1 ++ Some (bk, u) :: t2) aw -> (forall x, ~ in_u x u -> m x = amem aw x) ->
    has (t1 ++ Some (bk, u) :: t2) (fst aw, al_set_mem A (snd aw) m) /\ same_on (both (t1 ++ t2)) (amem aw) m.
  Proof.
    intros H Hm. rewrite has_mid in *. destruct bk.
    - apply (serves_write amax smax' A own Hct min _ aw u _ m H Hm).
    - apply (serves_write_ext amax smax' A own Hct min _ aw u _ m H Hm).
  Qed.

  (** ** The invariant *)

  Record ginv (c : gcst (W := W)) (on : bool) (t : list (option gbuf)) : Prop := mkGinv {
    gi_mode : g_on (gc_st c) = on;
    gi_has : has (gc_tab c) (g_aw (gc_st c));
    gi_agree : Forall2 (gagree (amem (g_aw (gc_st c)))) (gc_tab c) t;
    gi_sizes : Forall (fun x => 1 <= l_size (u_layout (snd x))) (live (gc_tab c));
    gi_direct : on = false -> part true (gc_tab c) = [];
    gi_count : if dbg then g_count (gc_st c) = Z.of_nat (length (part true (gc_tab c))) else g_count (gc_st c) = 0
  }.

  Lemma gagree_same us m m' x y : same_on us m m' -> match x with Some (_, u) => In u us /\ l_size (u_layout u) <= u_len u | None => True end ->
    gagree m x y -> gagree m' x y.
  Proof.
    destruct x as [[bk u]|], y as [[bk' b]|]; cbn; auto. intros S [Hu Hl] (-> & E2 & E3 & H).
    split; [reflexivity|]. split; [exact E2|]. split; [exact E3|]. intros i c Hi Hc. rewrite <- (H i c Hi Hc).
    apply (S u); [exact Hu|]. unfold in_u. rewrite E3, <- E2 in Hi. lia.
  Qed.
  Lemma agree_same us m m' t s : same_on us m m' ->
    (forall h bk u, get h t = Some (bk, u) -> In u us /\ l_size (u_layout u) <= u_len u) ->
    Forall2 (gagree m) t s -> Forall2 (gagree m') t s.
  Proof.
    intros S Hi H. induction H as [|x y t s Hxy H IH]; constructor.
    - apply (gagree_same us m); auto. destruct x as [[bk u]|]; [|exact I]. apply (Hi O bk u). reflexivity.
    - apply IH. intros h bk u G. apply (Hi (Datatypes.S h) bk u). exact G.
  Qed.
  Lemma agree_get m t s h bk u : Forall2 (gagree m) t s -> get h t = Some (bk, u) ->
    exists t1 t2 (s1 s2 : list (option gbuf)) b, t = t1 ++ Some (bk, u) :: t2 /\ s = s1 ++ Some (bk, b) :: s2 /\ length t1 = h /\ length s1 = h /\
      gagree m (Some (bk, u)) (Some (bk, b)) /\ Forall2 (gagree m) t1 s1 /\ Forall2 (gagree m) t2 s2.
  Proof.
    intros H G. destruct (get_split _ _ _ G) as (t1 & t2 & -> & L).
    apply Forall2_app_inv_l in H. destruct H as (s1 & s2' & H1 & H2 & ->).
    inversion H2 as [|? b ? s2 Hb H2']; subst. destruct b as [[bk' b]|]; [|destruct Hb]. assert (bk = bk') by apply Hb. subst bk'.
    exists t1, t2, s1, s2, b. repeat (split; [reflexivity|]). split; [|auto]. symmetry. clear -H1. induction H1; cbn; congruence.
  Qed.
  Lemma agree_get_none m t s h : Forall2 (gagree m) t s -> get h t = None -> get h s = None.
  Proof.
    intros H. revert h. induction H as [|x y t s Hxy H IH]; intros h; [destruct h; auto|].
    destruct h as [|h]; [|apply IH]. cbn. destruct x as [[bk u]|], y as [[bk' b]|]; cbn in *; auto; try contradiction. discriminate.
  Qed.
  Lemma agree_reset m t s : Forall2 (gagree m) t s -> Forall2 (gagree m) (map not_blink t) (map without_blink s).
  Proof.
    intros H. induction H as [|x y t s Hxy H IH]; cbn [map]; constructor; [|exact IH].
    destruct x as [[bk u]|], y as [[bk' b]|]; cbn in *; auto; try contradiction. destruct Hxy as (-> & Hxy). destruct bk'; cbn; auto.
  Qed.

  Lemma has_in t aw : has t aw -> forall h bk u, get h t = Some (bk, u) -> In u (both t) /\ l_size (u_layout u) <= u_len u.
  Proof.
    intros H h bk u G. split; [apply both_in; eauto|]. destruct (has_block _ _ _ _ _ H G) as ((_ & _ & G3 & _) & _). exact G3.
  Qed.
  (** The other blocks, when one is replaced. *)
  Lemma agree_parts m m' t1 t2 s1 s2 bk u aw : has (t1 ++ Some (bk, u) :: t2) aw -> same_on (both (t1 ++ t2)) m m' ->
    Forall2 (gagree m) t1 s1 -> Forall2 (gagree m) t2 s2 ->
    Forall2 (gagree m') t1 s1 /\ Forall2 (gagree m') t2 s2.
  Proof.
    intros H S H1 H2.
    assert (Hl : forall h b v, get h (t1 ++ t2) = Some (b, v) -> l_size (u_layout v) <= u_len v).
    { intros h b v G. assert (In v (both (t1 ++ Some (bk, u) :: t2))) as Hv by (apply (both_incl_mid bk u); apply both_in; eauto).
      apply both_in in Hv. destruct Hv as (b' & h' & G'). apply (has_in _ _ H _ _ _ G'). }
    assert (Happ : forall h b v, get h t1 = Some (b, v) -> get h (t1 ++ t2) = Some (b, v)).
    { intros h b v G. unfold get in *. destruct (nth_error t1 h) eqn:E; [|discriminate].
      rewrite nth_error_app1; [rewrite E; exact G|]. apply nth_error_Some. congruence. }
    assert (Happ2 : forall h b v, get h t2 = Some (b, v) -> get (length t1 + h) (t1 ++ t2) = Some (b, v)).
    { intros h b v G. unfold get in *. rewrite nth_error_app2 by lia. replace (length t1 + h - length t1)%nat with h by lia. exact G. }
    split; eapply agree_same; try eassumption.
    - intros h b v G. apply Happ in G. split; [apply both_in; eauto|eapply Hl; exact G].
    - intros h b v G. apply Happ2 in G. split; [apply both_in; eauto|eapply Hl; exact G].
  Qed.

  (** So many non-empty blocks cannot exist. *)
  Lemma few_blocks t aw : has t aw -> Forall (fun x => 1 <= l_size (u_layout (snd x))) (live t) ->
    Z.of_nat (length (part true t)) <= USIZE_MAX.
  Proof.
    intros H Hs. destruct (serves_wf amax smax' A own Hct _ _ _ _ H) as [O D]. apply Forall_app in O. destruct O as [O _].
    apply pairwise_app in D. destruct D as [D _].
    assert (Hf : Forall (fun u => 0 < u_len u /\ 0 <= u_ptr u /\ u_ptr u + u_len u <= amax) (part true t)).
    { rewrite Forall_forall in *. intros u Hu. destruct (O u Hu) as ((G1 & _ & G3 & G4) & _). cbn in *.
      apply part_in in Hu. destruct Hu as [h Hu]. assert (Hl : In (true, u) (live t)) by (apply live_in; eauto).
      specialize (Hs _ Hl). cbn in Hs. lia. }
    pose proof (disjoint_sum (length (part true t)) (part true t) 0 amax (Nat.le_refl _) D (proj1 Hamax) Hf) as B.
    assert (Z.of_nat (length (part true t)) <= sum_len (part true t)); [|lia].
    clear -Hf. induction Hf as [|u us Hu Hf IH]; cbn [length sum_len]; lia.
  Qed.

  Lemma live_mid_forall {T} (P : T -> Prop) t1 t2 x y : Forall P (live (t1 ++ Some x :: t2)) ->
    match y with Some z => P z | None => True end -> Forall P (live (t1 ++ y :: t2)).
  Proof.
    intros H Hy. rewrite live_app in *. apply Forall_app in H. destruct H as [H1 H2]. cbn [live] in H2. inversion H2; subst.
    apply Forall_app. split; [exact H1|]. destruct y; cbn [live]; [constructor; assumption|assumption].
  Qed.

  (** ** One step *)

  Lemma wp_gcall {B} (m : M (gst (W := W)) B) f res c (Q : gres -> gcst (W := W) -> Prop) :
    wp m (gc_st c) (fun b s => Q (res b) (mkGc (f b (gc_tab c)) s)) -> wp (gcall m f res) c Q.
  Proof. unfold wp, gcall. destruct (m (gc_st c)); auto. contradiction. Qed.
  Lemma wp_gcall_np {B} (m : M (gst (W := W)) B) f res c (Q : gres -> gcst (W := W) -> Prop) :
    (forall b, res b <> GPanicked) ->
    wp m (gc_st c) (fun b s => Q (res b) (mkGc (f b (gc_tab c)) s)) -> wp (gcall m f res) c (fun r c' => Q r c' /\ r <> GPanicked).
  Proof. intros Hr. unfold wp, gcall. destruct (m (gc_st c)); auto. contradiction. Qed.
  Lemma wp_on_aw {B} (m : M (AW (W := W)) B) s (Q : B -> gst (W := W) -> Prop) :
    wp m (g_aw s) (fun b aw => Q b (mkG (g_on s) (g_count s) aw)) -> wp (on_aw m) s Q.
  Proof. unfold wp, on_aw. destruct (m (g_aw s)); auto. Qed.

  (** A reset: in debug builds it panics when a blink-mode block is alive, and nothing
      has happened then. *)
  Definition reset_spec (c : gcst (W := W)) (m : M (gst (W := W)) unit) (mode : bool) : Prop :=
    if dbg && negb (is_nil (part true (gc_tab c))) then m (gc_st c) = OPanic (gc_st c)
    else wp m (gc_st c) (fun _ s => g_on s = mode /\ g_count s = 0 /\
           same_on (part false (gc_tab c)) (amem (g_aw (gc_st c))) (amem (g_aw s)) /\
           has (map not_blink (gc_tab c)) (g_aw s)).

  Lemma g_reset_ok c on t : ginv c on t -> reset_spec c (g_reset A dbg) on.
  Proof.
    intros [Hm Hh _ _ _ Hc]. unfold reset_spec, g_reset.
    assert (Ez : dbg && negb (g_count (gc_st c) =? 0) = dbg && negb (is_nil (part true (gc_tab c)))).
    { destruct dbg; [|reflexivity]. rewrite Hc. destruct (part true (gc_tab c)); reflexivity. }
    destruct (dbg && negb (is_nil (part true (gc_tab c)))) eqn:E; [rewrite Ez; reflexivity|].
    unfold wp. rewrite Ez.
    change (wp (on_aw (blink_reset A)) (gc_st c) (fun _ s => g_on s = on /\ g_count s = 0 /\
       same_on (part false (gc_tab c)) (amem (g_aw (gc_st c))) (amem (g_aw s)) /\
       has (map not_blink (gc_tab c)) (g_aw s))).
    apply wp_on_aw. eapply wp_mono; [apply (serves_reset amax smax' A own Hct min _ _ _ true Hh)|].
    intros _ aw [S1 R1]. cbn [g_on g_count g_aw]. split; [exact Hm|]. split.
    - destruct dbg; [|exact Hc]. rewrite Hc. destruct (part true (gc_tab c)); [reflexivity|discriminate].
    - split; [exact S1|]. unfold has. rewrite part_reset_true, part_reset_false. exact R1.
  Qed.
  Lemma g_direct_ok c on t : ginv c on t -> reset_spec c (g_direct_mode A dbg) false.
  Proof.
    intros H. pose proof (g_reset_ok _ _ _ H) as R. unfold reset_spec, g_direct_mode in *.
    destruct (dbg && negb (is_nil (part true (gc_tab c)))).
    - unfold bind. rewrite R. reflexivity.
    - apply wp_bind. eapply wp_mono; [exact R|]. intros _ s (R1 & R2 & R3 & R4). unfold wp. cbn. auto.
  Qed.

  Lemma reset_inv c on t mode m : ginv c on t -> reset_spec c m mode -> (mode = on \/ mode = false) ->
    wp (gcall m (fun _ => map not_blink) (fun _ => GDone)) c (fun r c' =>
      if dbg && negb (is_nil (part true (gc_tab c))) then r = GPanicked /\ c' = c
      else r = GDone /\ ginv c' mode (map without_blink t)).
  Proof.
    intros H R Hmode. unfold reset_spec in R. destruct (dbg && negb (is_nil (part true (gc_tab c)))).
    - unfold wp, gcall. rewrite R. split; [reflexivity|]. destruct c; reflexivity.
    - apply wp_gcall. eapply wp_mono; [exact R|]. intros _ s (R1 & R2 & R3 & R4). split; [reflexivity|].
      destruct H as [Hm Hh Ha Hs Hd Hc]. constructor; cbn [gc_st gc_tab].
      + exact R1.
      + exact R4.
      + assert (Hin : forall h bk u, get h (map not_blink (gc_tab c)) = Some (bk, u) ->
            In u (part false (gc_tab c)) /\ l_size (u_layout u) <= u_len u).
        { intros h bk u G. destruct (has_in _ _ R4 _ _ _ G) as [Hb Hl]. split; [|exact Hl].
          unfold both in Hb. rewrite part_reset_true, part_reset_false in Hb. exact Hb. }
        apply (agree_same (part false (gc_tab c)) (amem (g_aw (gc_st c)))); [exact R3|exact Hin|apply agree_reset; exact Ha].
      + clear -Hs. induction (gc_tab c) as [|[[[|] u]|] l IH]; cbn [map not_blink live] in *; auto.
        * inversion Hs; subst; auto.
        * inversion Hs; subst; constructor; auto.
      + intros _. apply part_reset_true.
      + rewrite part_reset_true, R2. destruct dbg; reflexivity.
  Qed.

  Definition step_post (o : gop) (c : gcst (W := W)) (on : bool) (t : list (option gbuf)) (r : gres) (c' : gcst (W := W)) : Prop :=
    ginv c' (gmode o r on) (gspec o r on t) /\
    (r = GPanicked <-> (o = GReset \/ o = GDirect) /\ dbg = true /\ part true (gc_tab c) <> []) /\
    (r = GPanicked -> c' = c).

  Lemma no_panic (o : gop) r (c c' : gcst (W := W)) : o <> GReset -> o <> GDirect -> r <> GPanicked ->
    (r = GPanicked <-> (o = GReset \/ o = GDirect) /\ dbg = true /\ part true (gc_tab c) <> []) /\ (r = GPanicked -> c' = c).
  Proof. intros H1 H2 H3. split; [split; [contradiction|intros [[E|E] _]; contradiction]|contradiction]. Qed.
  Lemma got_not_panic r : got r <> GPanicked.
  Proof. destruct r; discriminate. Qed.

  Lemma gstep_ok o c on t : ginv c on t ->
    wp (gstep A dbg sync smax may o) c (step_post o c on t).
  Proof.
    intros H. pose proof H as [Hm Hh Ha Hs Hd Hc]. unfold gstep.
    change (wp (gstep_at A dbg sync smax may o (g_on (gc_st c)) (gc_tab c)) c (step_post o c on t)).
    rewrite Hm.
    assert (Skip : forall o, wp (ret GSkipped) c (fun r c' => ginv c' (gmode o r on) (gspec o r on t) /\ r <> GPanicked)).
    { clear o. intros o. apply wp_ret. split; [destruct o; exact H|discriminate]. }
    assert (Fin : forall o m, o <> GReset -> o <> GDirect ->
      wp m c (fun r c' => ginv c' (gmode o r on) (gspec o r on t) /\ r <> GPanicked) -> wp m c (step_post o c on t)).
    { clear o. intros o m N1 N2 X. eapply wp_mono; [exact X|]. intros r c' [X1 X2]. split; [exact X1|]. apply no_panic; assumption. }
    destruct o as [l z|h|h n|h off cs| | |]; [apply Fin; try discriminate..| |apply Fin; try discriminate|]; cbn [gstep_at].
    - (* alloc *)
      destruct (layout_okb l && req_okb smax l && (1 <=? l_size l)) eqn:El; [|apply (Skip (GAlloc l z))].
      apply andb_true_iff in El. destruct El as [El E1]. apply andb_true_iff in El. destruct El as [_ El]. apply (wp_gcall_np _ _ _ _ (fun r c' => ginv c' (gmode (GAlloc l z) r on) (gspec (GAlloc l z) r on t))); [intros; apply got_not_panic|]. unfold g_alloc.
      change (wp (r <- on_aw (if z then st_allocate_zeroed A dbg (g_on (gc_st c)) l else st_allocate A dbg (g_on (gc_st c)) l) ;;
                  match r with Some b => count_up dbg sync ;;; ret (Some b) | None => ret None end) (gc_st c)
        (fun b s => ginv (mkGc (match b with Some b0 => gc_tab c ++ [Some (on, mkU (b_ptr b0) (b_len b0) l)] | None => gc_tab c end) s)
                         (gmode (GAlloc l z) (got b) on) (gspec (GAlloc l z) (got b) on t))).
      rewrite Hm. apply wp_bind. apply wp_on_aw.
      eapply wp_mono; [apply (st_alloc_ok on _ _ l z Hh El)|]. intros [b|] aw (S1 & R).
      + destruct R as (G & R & Z1). set (u := mkU (b_ptr b) (b_len b) l) in *.
        set (t' := gc_tab c ++ [Some (on, u)]) in *.
        assert (Hsz : Forall (fun x => 1 <= l_size (u_layout (snd x))) (live t')).
        { unfold t'. rewrite live_app. apply Forall_app. split; [exact Hs|]. constructor; [cbn; lia|constructor]. }
        pose proof (few_blocks _ _ R Hsz) as Hfew.
        assert (Elen : Z.of_nat (length (part true t')) = Z.of_nat (length (part true (gc_tab c))) + (if on then 1 else 0)).
        { unfold t'. rewrite part_app, app_length. destruct on; cbn; lia. }
        assert (Hcu : wp (count_up dbg sync) (mkG on (g_count (gc_st c)) aw) (fun _ s =>
           g_on s = on /\ g_aw s = aw /\ if dbg then g_count s = Z.of_nat (length (part true t')) else g_count s = 0)).
        { unfold wp, count_up. cbn [g_on g_count g_aw]. destruct dbg; cbn [andb].
          - rewrite Hc. destruct on; [|split; [reflexivity|]; split; [reflexivity|]; cbn; lia].
            unfold U64_MAX, USIZE_MAX, wrap in *. destruct sync.
            + cbn. split; [reflexivity|]. split; [reflexivity|]. rewrite Z.mod_small; lia.
            + destruct (Z.leb_spec (Z.of_nat (length (part true (gc_tab c))) + 1) (2 ^ 64 - 1)); [|lia].
              cbn. split; [reflexivity|]. split; [reflexivity|]. lia.
          - auto. }
        apply wp_bind. cbn [g_on]. rewrite Hm. eapply wp_mono; [exact Hcu|]. intros _ s (Q1 & Q2 & Q3). apply wp_ret.
        cbn [got gmode gspec].
        constructor; cbn [gc_st gc_tab].
        * exact Q1.
        * rewrite Q2. exact R.
        * rewrite Q2. apply Forall2_app.
          -- apply (agree_same (both (gc_tab c)) (amem (g_aw (gc_st c)))); [exact S1|apply (has_in _ _ Hh)|exact Ha].
          -- constructor; [|constructor]. cbn. split; [reflexivity|]. split; [reflexivity|]. split; [reflexivity|].
             intros i x Hi Hx. destruct z; [|discriminate]. injection Hx as <-. apply (Z1 eq_refl). destruct G as (_ & _ & G3 & _). lia.
        * exact Hsz.
        * intros E. unfold t'. rewrite part_app, (Hd E), E. reflexivity.
        * exact Q3.
      + apply wp_ret. cbn [got gmode gspec]. constructor; cbn [gc_st gc_tab g_on g_aw g_count]; auto.
        apply (agree_same (both (gc_tab c)) (amem (g_aw (gc_st c)))); [exact S1|apply (has_in _ _ Hh)|exact Ha].
    - (* dealloc *)
      destruct (get h (gc_tab c)) as [[bk u]|] eqn:G; [|apply (Skip (GDealloc h))].
      destruct (Bool.eqb bk on) eqn:Eb; [|apply (Skip (GDealloc h))]. apply eqb_prop in Eb. subst bk.
      destruct (agree_get _ _ _ _ _ _ Ha G) as (t1 & t2 & s1 & s2 & b & Et & Es & L1 & L2 & Hb & A1 & A2).
      apply (wp_gcall_np _ _ _ _ (fun r c' => ginv c' (gmode (GDealloc h) r on) (gspec (GDealloc h) r on t))); [discriminate|]. unfold g_dealloc.
      change (wp (on_aw (st_deallocate A (g_on (gc_st c)) (u_ptr u) (u_layout u)) ;;; count_down dbg sync) (gc_st c)
        (fun _ s => ginv (mkGc (set_nth h None (gc_tab c)) s) (gmode (GDealloc h) GDone on) (gspec (GDealloc h) GDone on t))).
      rewrite Hm. rewrite Et in *. apply wp_bind. apply wp_on_aw.
      eapply wp_mono; [apply (st_dealloc_ok on u t1 t2 _ Hh)|]. intros _ aw (S1 & R).
      assert (Elen : Z.of_nat (length (part true (t1 ++ None :: t2))) = Z.of_nat (length (part true (t1 ++ Some (on, u) :: t2))) - (if on then 1 else 0)).
      { rewrite part_mid_none. destruct on.
        - rewrite (Permutation_length (part_mid_same true u t1 t2)). cbn [length]. lia.
        - pose proof (part_mid_other false u t1 t2) as E. cbn [negb] in E. rewrite E. lia. }
      assert (Hcd : wp (count_down dbg sync) (mkG on (g_count (gc_st c)) aw) (fun _ s =>
           g_on s = on /\ g_aw s = aw /\ if dbg then g_count s = Z.of_nat (length (part true (t1 ++ None :: t2))) else g_count s = 0)).
      { unfold wp, count_down. cbn [g_on g_count g_aw]. destruct dbg; cbn [andb].
        - rewrite Hc. destruct on; [|split; [reflexivity|]; split; [reflexivity|]; cbn; lia].
          pose proof (few_blocks _ _ Hh Hs) as Hfew. unfold wrap, USIZE_MAX in *. cbn. split; [reflexivity|]. split; [reflexivity|].
          destruct sync; [rewrite Z.mod_small; lia|lia].
        - auto. }
      cbn [g_on]. rewrite Hm. eapply wp_mono; [exact Hcd|]. intros _ s (Q1 & Q2 & Q3). cbn [gmode gspec].
      rewrite Es. rewrite <- L1 at 1. rewrite <- L2 at 1. rewrite !set_nth_split.
      destruct (agree_parts _ _ t1 t2 s1 s2 on u _ Hh S1 A1 A2) as [A1' A2'].
      constructor; cbn [gc_st gc_tab].
      + exact Q1.
      + rewrite Q2. exact R.
      + rewrite Q2. apply Forall2_app; [exact A1'|]. constructor; [exact I|exact A2'].
      + apply (live_mid_forall _ t1 t2 (on, u) None Hs I).
      + intros E. specialize (Hd E). rewrite part_mid_none. rewrite E in Hd.
        pose proof (part_mid_other false u t1 t2) as E'. cbn [negb] in E'. rewrite <- E'. exact Hd.
      + exact Q3.
    - (* realloc *)
      destruct (get h (gc_tab c)) as [[bk u]|] eqn:G; [|apply (Skip (GRealloc h n))].
      cbn zeta. destruct (Bool.eqb bk on && (1 <=? n) && (n <=? USIZE_MAX) && (req_okb smax (mkLayout n (l_align (u_layout u))) || negb (layout_okb (mkLayout n (l_align (u_layout u)))))
        && (on || may (l_size (u_layout u)) n)) eqn:Eb; [|apply (Skip (GRealloc h n))].
      apply andb_true_iff in Eb. destruct Eb as [Eb Em]. apply andb_true_iff in Eb. destruct Eb as [Eb Er].
      apply andb_true_iff in Eb. destruct Eb as [Eb E2].
      apply andb_true_iff in Eb. destruct Eb as [Eb E1]. apply eqb_prop in Eb. subst bk.
      destruct (agree_get _ _ _ _ _ _ Ha G) as (t1 & t2 & s1 & s2 & b & Et & Es & L1 & L2 & Hb & A1 & A2).
      apply (wp_gcall_np _ _ _ _ (fun r c' => ginv c' (gmode (GRealloc h n) r on) (gspec (GRealloc h n) r on t))); [intros; apply got_not_panic|]. unfold g_realloc. remember (mkLayout n (l_align (u_layout u))) as new eqn:En.
      destruct (layout_okb new) eqn:El0.
      2: { unfold wp. cbn [got gmode gspec]. destruct c; exact H. }
      assert (Hp : u_ptr u =? 0 = false).
      { destruct (has_block _ _ _ _ _ Hh G) as ((G1 & _) & _). unfold ublk in G1. cbn in G1. lia. }
      assert (El : req_okb smax new = true) by (destruct (req_okb smax new); [reflexivity|discriminate]).
      unfold wp. rewrite Hp, Hm.
      change (wp (on_aw (st_resize A dbg on (u_ptr u) (u_layout u) new)) (gc_st c) (fun b0 s =>
        ginv (mkGc (match b0 with Some b1 => set_nth h (Some (on, mkU (b_ptr b1) (b_len b1) new)) (gc_tab c) | None => gc_tab c end) s)
             (gmode (GRealloc h n) (got b0) on) (gspec (GRealloc h n) (got b0) on t))).
      assert (Em' : on || may (l_size (u_layout u)) (l_size new) = true) by (rewrite En; exact Em).
      rewrite Et in *. apply wp_on_aw.
      eapply wp_mono; [apply (st_resize_ok on u t1 t2 _ new Hh El Em')|]. intros [b1|] aw (S1 & R).
      + destruct R as (Gb & R & C). cbn [got gmode gspec]. rewrite Es. rewrite <- L1 at 1.
        assert (Gs : @get gbuf h (s1 ++ Some (on, b) :: s2) = Some (on, b)) by (rewrite <- L2; apply get_mid).
        rewrite Gs. rewrite <- L2 at 1. rewrite !set_nth_split.
        destruct (agree_parts _ _ t1 t2 s1 s2 on u _ Hh S1 A1 A2) as [A1' A2'].
        destruct Hb as (_ & Hb1 & Hb2 & Hb3).
        constructor; cbn [gc_st gc_tab g_on g_aw g_count].
        * exact Hm.
        * exact R.
        * apply Forall2_app; [exact A1'|]. constructor; [|exact A2']. cbn. split; [reflexivity|].
          rewrite <- Hb1. split; [exact En|]. split; [reflexivity|]. intros i x Hi Hx.
          destruct (Z.ltb_spec i (s_len b)); [|discriminate].
          rewrite (C i); [|rewrite En; cbn [l_size]; rewrite Hb2, <- Hb1 in *; lia]. apply Hb3; [lia|exact Hx].
        * apply (live_mid_forall _ t1 t2 (on, u) (Some (on, mkU (b_ptr b1) (b_len b1) new)) Hs). rewrite En. cbn. lia.
        * intros E0. specialize (Hd E0). rewrite E0 in Hd |- *. pose proof (part_mid_other false u t1 t2) as E. cbn [negb] in E.
          rewrite E in Hd. pose proof (part_mid_other false (mkU (b_ptr b1) (b_len b1) new) t1 t2) as E'. cbn [negb] in E'.
          rewrite E'. exact Hd.
        * destruct dbg; [|exact Hc]. rewrite Hc. f_equal. destruct on.
          -- rewrite (Permutation_length (part_mid_same true u t1 t2)), (Permutation_length (part_mid_same true (mkU (b_ptr b1) (b_len b1) new) t1 t2)).
             reflexivity.
          -- pose proof (part_mid_other false u t1 t2) as E. pose proof (part_mid_other false (mkU (b_ptr b1) (b_len b1) new) t1 t2) as E'.
             cbn [negb] in E, E'. rewrite E, E'. reflexivity.
      + destruct R as [S2 R]. cbn [got gmode gspec]. rewrite Es.
        destruct (agree_parts _ _ t1 t2 s1 s2 on u _ Hh S1 A1 A2) as [A1' A2'].
        constructor; cbn [gc_st gc_tab g_on g_aw g_count]; auto.
        apply Forall2_app; [exact A1'|]. constructor; [|exact A2'].
        apply (gagree_same [u] (amem (g_aw (gc_st c)))); [exact S2| |exact Hb]. split; [left; reflexivity|].
        destruct (has_block _ _ _ _ _ Hh G) as ((_ & _ & G3 & _) & _). exact G3.
    - (* write *)
      destruct (get h (gc_tab c)) as [[bk u]|] eqn:G; [|apply (Skip (GWrite h off cs))].
      destruct ((0 <=? off) && (off + Z.of_nat (length cs) <=? l_size (u_layout u))) eqn:Eb; [|apply (Skip (GWrite h off cs))].
      apply andb_true_iff in Eb. destruct Eb as [Eb1 Eb2].
      destruct (agree_get _ _ _ _ _ _ Ha G) as (t1 & t2 & s1 & s2 & b & Et & Es & L1 & L2 & Hb & A1 & A2).
      assert (Hu : l_size (u_layout u) <= u_len u) by apply (has_in _ _ Hh _ _ _ G).
      unfold wp. cbn zeta. split; [|discriminate]. cbn [gmode gspec]. rewrite Es.
      assert (Gs : @get gbuf h (s1 ++ Some (bk, b) :: s2) = Some (bk, b)) by (rewrite <- L2; apply get_mid).
      rewrite Gs. rewrite <- L2 at 1. rewrite set_nth_split.
      rewrite Et in Hh.
      destruct (has_write bk u t1 t2 _ (write_cells (amem (g_aw (gc_st c))) (u_ptr u + off) cs) Hh) as [Hh' S'].
      { intros x Hx. apply write_cells_other. unfold in_u in Hx. lia. }
      destruct (agree_parts _ _ t1 t2 s1 s2 bk u _ Hh S' A1 A2) as [A1' A2'].
      constructor; cbn [gc_st gc_tab g_on g_aw g_count].
      + exact Hm.
      + rewrite Et. exact Hh'.
      + rewrite Et. cbn [snd]. rewrite (ct_mem _ _ _ _ Hct). apply Forall2_app; [exact A1'|]. constructor; [|exact A2'].
        destruct Hb as (_ & Hb1 & Hb2 & Hb3). cbn. split; [reflexivity|]. split; [exact Hb1|]. split; [exact Hb2|].
        intros i x Hi Hx. destruct ((off <=? i) && (i <? off + Z.of_nat (length cs))) eqn:Ei.
        * injection Hx as <-. apply andb_true_iff in Ei. destruct Ei as [Ei1 Ei2].
          replace (u_ptr u + i) with (u_ptr u + off + (i - off)) by lia. rewrite write_cells_in by lia. reflexivity.
        * rewrite write_cells_other by lia. apply Hb3; assumption.
      + exact Hs.
      + exact Hd.
      + exact Hc.
    - (* reset *)
      eapply wp_mono; [apply (reset_inv c on t on (g_reset A dbg) H (g_reset_ok _ _ _ H) (or_introl eq_refl))|].
      intros r c' Hr. unfold step_post. destruct (dbg && negb (is_nil (part true (gc_tab c)))) eqn:Ed; destruct Hr as [-> Hr].
      + rewrite Hr. split; [exact H|]. split; [|auto]. split; [|auto]. intros _. split; [auto|].
        apply andb_true_iff in Ed. destruct Ed as [Ed1 Ed2]. split; [exact Ed1|]. destruct (part true (gc_tab c)); discriminate.
      + split; [exact Hr|]. split; [|discriminate]. split; [discriminate|]. intros (_ & -> & N).
        destruct (part true (gc_tab c)); [contradiction|discriminate].
    - (* blink *)
      apply (wp_gcall_np _ _ _ _ (fun r c' => ginv c' (gmode GBlink r on) (gspec GBlink r on t))); [discriminate|].
      unfold wp, g_blink_mode. cbn [gmode gspec]. constructor; cbn [gc_st gc_tab g_on g_aw g_count]; auto. discriminate.
    - (* direct *)
      eapply wp_mono; [apply (reset_inv c on t false (g_direct_mode A dbg) H (g_direct_ok _ _ _ H) (or_intror eq_refl))|].
      intros r c' Hr. unfold step_post. destruct (dbg && negb (is_nil (part true (gc_tab c)))) eqn:Ed; destruct Hr as [-> Hr].
      + rewrite Hr. split; [exact H|]. split; [|auto]. split; [|auto]. intros _. split; [auto|].
        apply andb_true_iff in Ed. destruct Ed as [Ed1 Ed2]. split; [exact Ed1|]. destruct (part true (gc_tab c)); discriminate.
      + split; [exact Hr|]. split; [|discriminate]. split; [discriminate|]. intros (_ & -> & N).
        destruct (part true (gc_tab c)); [contradiction|discriminate].
  Qed.

  Lemma grun_ok os : forall c on t, ginv c on t ->
    wp (grun A dbg sync smax may os) c (fun rs c' =>
      length rs = length os /\ ginv c' (fst (gspecs os rs on t)) (snd (gspecs os rs on t))).
  Proof.
    induction os as [|o os IH]; intros c on t H; cbn [grun].
    - apply wp_ret. split; [reflexivity|exact H].
    - apply wp_bind. eapply wp_mono; [apply (gstep_ok o c on t H)|]. intros r c' (H' & _).
      apply wp_bind. eapply wp_mono; [apply (IH _ _ _ H')|]. intros rs c'' (L1 & H''). apply wp_ret.
      cbn [length gspecs]. auto.
  Qed.

  Lemma gstart_inv w : own w [] -> ginv (mkGc [] (g_new min w)) false [].
  Proof.
    intros Ho. constructor; cbn; auto.
    - exists []. split; [|reflexivity]. apply (arep_new amax smax' A own); auto.
    - destruct dbg; reflexivity.
  Qed.
End Global.
