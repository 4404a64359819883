(** C81: the contents of memory are what PaperMem.v says. *)
From Coq Require Import Permutation.
From Verif Require Import Base BaseFacts Alloc AllocFacts Arena ArenaFacts ArenaInv ArenaOps BlinkAlloc BlinkFacts
  History HistoryFacts Setup SetupFacts SetupOps SetupOps2 SetupOps3 ConcProps Paper PaperFacts PaperMem.

Lemma one_of_spec a n x : one_of a n x = true <-> a <= x < a + n.
Proof. unfold one_of. rewrite andb_true_iff. lia. Qed.
Lemma one_of_not a n x : one_of a n x = false <-> ~ (a <= x < a + n).
Proof. rewrite <- one_of_spec. destruct (one_of a n x); split; congruence. Qed.

Lemma later_refl tr m : later_calls tr tr m = m.
Proof. destruct tr as [|e t]; [reflexivity|]. cbn [later_calls]. rewrite Nat.leb_refl. reflexivity. Qed.
Lemma later_cons tr e t m : (length tr <= length t)%nat ->
  later_calls tr (e :: t) m = erased e (later_calls tr t m).
Proof.
  intros H. cbn [later_calls]. destruct (Nat.leb (length (e :: t)) (length tr)) eqn:E; [|reflexivity].
  apply Nat.leb_le in E. cbn in E. lia.
Qed.
Lemma later_one tr e m : later_calls tr (e :: tr) m = erased e m.
Proof. rewrite later_cons by lia. rewrite later_refl. reflexivity. Qed.

Lemma erased_at e m1 m2 x : m1 x = m2 x -> erased e m1 x = erased e m2 x.
Proof.
  intros H. unfold erased. destruct e as [l [b|]|p l|p l1 l2 r]; auto; rewrite H; reflexivity.
Qed.
Lemma later_at tr tr' m1 m2 x : m1 x = m2 x -> later_calls tr tr' m1 x = later_calls tr tr' m2 x.
Proof.
  intros H. induction tr' as [|e t IH]; [exact H|].
  cbn [later_calls]. destruct (Nat.leb (length (e :: t)) (length tr)); [exact H|].
  apply erased_at. exact IH.
Qed.

Lemma give_back_length ks : forall tr, (length (give_back ks tr) = length ks + length tr)%nat.
Proof. induction ks as [|k ks IH]; intros tr; [reflexivity|]. cbn [give_back]. rewrite IH. cbn. lia. Qed.

(** Composition of what calls do. *)
Lemma later_trans tr evs1 : forall evs2 m,
  later_calls tr (evs2 ++ evs1 ++ tr) m = later_calls (evs1 ++ tr) (evs2 ++ evs1 ++ tr) (later_calls tr (evs1 ++ tr) m).
Proof.
  induction evs2 as [|e evs2 IH]; intros m.
  - cbn [app]. rewrite later_refl. reflexivity.
  - cbn [app]. rewrite !later_cons by (rewrite !app_length; lia). rewrite IH. reflexivity.
Qed.
Lemma give_back_app ks : forall tr, exists evs, give_back ks tr = evs ++ tr.
Proof.
  induction ks as [|k ks IH]; intros tr; [exists []; reflexivity|].
  cbn [give_back]. destruct (IH (EvDealloc (p_at k) (mkLayout (p_len k) 8) :: tr)) as (evs & E).
  exists (evs ++ [EvDealloc (p_at k) (mkLayout (p_len k) 8)]). rewrite E, <- app_assoc. reflexivity.
Qed.
Lemma later_undef_keep tr tr' m x : m x = Undef -> later_calls tr tr' m x = Undef.
Proof.
  intros H. induction tr' as [|e t IH]; [exact H|].
  cbn [later_calls]. destruct (Nat.leb (length (e :: t)) (length tr)); [exact H|].
  unfold erased. destruct e as [l [b|]|p l|p l1 l2 r]; try exact IH; rewrite IH; destruct (one_of _ _ x); reflexivity.
Qed.
Lemma later_lost ks : forall tr m x k, In k ks -> p_at k <= x < p_end k -> later_calls tr (give_back ks tr) m x = Undef.
Proof.
  induction ks as [|k0 ks IH]; intros tr m x k Hk Hx; [destruct Hk|]. cbn [give_back].
  set (e := EvDealloc (p_at k0) (mkLayout (p_len k0) 8)).
  destruct (give_back_app ks (e :: tr)) as (evs & E).
  pose proof (later_trans tr [e] evs m) as T. cbn [app] in T. rewrite E. rewrite T.
  destruct Hk as [->|Hk].
  - apply later_undef_keep. rewrite later_one. unfold e, erased. cbn [l_size].
    rewrite (proj2 (one_of_spec _ _ _)); [reflexivity|]. unfold p_end in Hx. lia.
  - rewrite <- E. apply (IH _ _ _ k Hk Hx).
Qed.

(** ** What the functions of the arena do to memory *)
Section Effects.
  Variable smax : Z.
  Variable St : strategy.
  Variable dbg : bool.
  Notation B := (base smax St).

  (** [x] is in the header of the chunk at [c]. *)
  Definition header (c x : Z) : Prop := c <= x < c + 32.

  (** No call, and at most the header at [c] changes. *)
  Definition only_header (c : Z) (w w' : bworld) : Prop :=
    bw_trace w' = bw_trace w /\ forall x, ~ header c x -> bw_mem w' x = bw_mem w x.

  Lemma only_refl c w : only_header c w w.
  Proof. split; auto. Qed.
  Lemma only_trans c w1 w2 w3 : only_header c w1 w2 -> only_header c w2 w3 -> only_header c w1 w3.
  Proof. intros [T1 M1] [T2 M2]. split; [congruence|]. intros x Hx. rewrite M2, M1 by exact Hx. reflexivity. Qed.
  Lemma only_store c w a v : c <= a -> a + 8 <= c + 32 ->
    only_header c w (al_set_mem B w (store (al_mem B w) a 8 v)).
  Proof.
    intros H1 H2. split; [reflexivity|]. intros x Hx. cbn. apply store_other. unfold header in Hx. lia.
  Qed.

  Ltac wl :=
    lazymatch goal with
    | |- wlp (ret _) _ _ => apply wlp_ret
    | |- wlp ub _ _ => apply wlp_ub
    | |- wlp (bind (mload _ _ _) _) _ _ =>
        let E := fresh "E" in apply wlp_bind; intros ? ? E; apply pure_load in E; destruct E as [-> E]
    | |- wlp (bind (debug_assert _ _) _) _ _ =>
        let E := fresh "E" in apply wlp_bind; intros ? ? E; apply pure_assert in E; subst
    | |- wlp (bind (add_usize _ _ _) _) _ _ =>
        let E := fresh "E" in apply wlp_bind; intros ? ? E; apply pure_add in E; subst
    | |- wlp (bind (sub_usize _ _ _) _) _ _ =>
        let E := fresh "E" in apply wlp_bind; intros ? ? E; apply pure_sub in E; subst
    | |- wlp (bind (ptr_add _ _) _) _ _ =>
        let E := fresh "E" in apply wlp_bind; intros ? ? E; apply pure_ptr_add in E; destruct E as [-> E]
    | |- wlp (bind (alloc_attempt _ _ _ _) _) _ _ =>
        let E := fresh "E" in apply wlp_bind; intros ? ? E; apply pure_attempt in E; subst
    | |- wlp (bind (mstore _ _ _ _) _) _ _ =>
        let E := fresh "E" in apply wlp_bind; intros ? ? E; injection E as <- <-
    end.

  Lemma chunk_alloc_only c l w :
    wlp (chunk_alloc B dbg c l) w (fun r w' => only_header c w w' /\ (r = None -> w' = w)).
  Proof.
    unfold chunk_alloc. wl. wl. wl.
    match goal with |- wlp (match ?r with Some _ => _ | None => _ end) _ _ => destruct r as [[a n]|] end.
    - apply wlp_bind. unfold cell_cas_weak. wl. wl. intros v1 w1 Es. injection Es as <- <-.
      wl. wl. wl. wl. split; [|discriminate]. apply only_store; unfold CURSOR; lia.
    - wl. split; [apply only_refl|reflexivity].
  Qed.

  (** [w'] is [w1] with [n] bytes copied. *)
  Definition copied (w1 w' : bworld) (src dst n : Z) : Prop :=
    bw_trace w' = bw_trace w1 /\ bw_mem w' = copy (bw_mem w1) src dst n.

  Lemma mcopy_copied src dst n w : wlp (mcopy B src dst n) w (fun _ w' => copied w w' src dst n).
  Proof.
    unfold mcopy. intros b w' E. destruct ((n =? 0) || (src + n <=? dst) || (dst + n <=? src)); [|discriminate].
    injection E as _ <-. split; reflexivity.
  Qed.

  Lemma chunk_realloc_mem c ptr old new w :
    wlp (chunk_realloc B dbg c ptr old new) w (fun r w' =>
      match r with
      | None => w' = w
      | Some b => exists w1, only_header c w w1 /\ copied w1 w' ptr (b_ptr b) (Z.min (l_size new) (l_size old))
      end).
  Proof.
    unfold chunk_realloc. apply wlp_bind. eapply wlp_mono; [apply chunk_alloc_only|].
    intros r w1 [O N]. destruct r as [b|]; [|wl; auto].
    apply wlp_bind. eapply wlp_mono; [apply mcopy_copied|]. intros ? w2 C. wl. exists w1. auto.
  Qed.

  Lemma chunk_resize_mem c ptr old new w :
    wlp (chunk_resize B dbg c ptr old new) w (fun r w' =>
      match r with
      | None => w' = w
      | Some b => (b_ptr b = ptr /\ only_header c w w') \/
          exists w1, only_header c w w1 /\ copied w1 w' ptr (b_ptr b) (Z.min (l_size new) (l_size old))
      end).
  Proof.
    assert (Hre : wlp (chunk_realloc B dbg c ptr old new) w (fun r w' =>
      match r with
      | None => w' = w
      | Some b => (b_ptr b = ptr /\ only_header c w w') \/
          exists w1, only_header c w w1 /\ copied w1 w' ptr (b_ptr b) (Z.min (l_size new) (l_size old))
      end)).
    { eapply wlp_mono; [apply chunk_realloc_mem|]. intros r w' H. destruct r; auto. }
    unfold chunk_resize. destruct (l_align new <=? l_align old); [|exact Hre].
    destruct (l_size new <=? l_size old).
    - wl. left. split; [reflexivity|apply only_refl].
    - wl. wl. destruct (_ =? _); [|exact Hre].
      destruct (checked_add ptr (l_size new)) as [next|]; [|wl; reflexivity].
      wl. destruct (_ <? next); [wl; reflexivity|].
      wl. apply wlp_bind. unfold cell_cas. wl.
      destruct (_ =? _).
      + wl. wl. wl. wl. wl. left. split; [reflexivity|]. apply only_store; unfold CURSOR; lia.
      + wl. exact Hre.
  Qed.

  (** A new chunk. *)
  Definition new_chunk (w w' : bworld) (c : Z) : Prop :=
    exists lay b, bw_trace w' = EvAlloc lay (Some b) :: bw_trace w /\ b_ptr b = c /\
      st_alloc St (bw_trace w) lay = Some b /\
      forall x, ~ header c x -> bw_mem w' x = erased (EvAlloc lay (Some b)) (bw_mem w) x.

  (** Nothing but a refused call. *)
  Definition refused (w w' : bworld) : Prop :=
    (forall x, bw_mem w' x = bw_mem w x) /\ (bw_trace w' = bw_trace w \/ exists lay, bw_trace w' = EvAlloc lay None :: bw_trace w).

  Lemma init_chunk_only b prev w :
    wlp (init_chunk B dbg b prev) w (fun c w' => c = b_ptr b /\ only_header (b_ptr b) w w').
  Proof.
    unfold init_chunk. wl. wl. wl. wl. apply wlp_bind.
    assert (Hc : wlp (match prev with
                      | None => ret 0
                      | Some p => c <- chunk_cap B p ;; s <- mload B (p + CUM) 8 ;; add_usize dbg c s
                      end) w (fun _ w' => w' = w)).
    { destruct prev as [p|]; [|wl; reflexivity]. apply wlp_bind. unfold chunk_cap. wl. wl. wl.
      intros v w' Ea. apply pure_add in Ea. exact Ea. }
    eapply wlp_mono; [exact Hc|]. intros cum ? ->. wl. wl. wl. wl. wl. split; [reflexivity|].
    split; [reflexivity|]. intros x Hx. cbn. unfold header, CURSOR, END, PREV, CUM in *.
    rewrite !store_other by lia. reflexivity.
  Qed.

  Lemma base_allocate_mem l w :
    wlp (al_allocate B l) w (fun r w' => r = st_alloc St (bw_trace w) l /\
      bw_trace w' = EvAlloc l r :: bw_trace w /\
      forall x, bw_mem w' x = erased (EvAlloc l r) (bw_mem w) x).
  Proof.
    intros r w' E. cbn in E. unfold base_allocate in E. destruct (negb (req_okb smax l)); [discriminate|].
    injection E as <- <-. split; [reflexivity|]. split; [reflexivity|]. intros x. cbn [bw_mem].
    unfold erased. destruct (st_alloc St (bw_trace w) l) as [b|]; reflexivity.
  Qed.

  Lemma alloc_slow_mem root min l w :
    wlp (alloc_slow B dbg root min l) w (fun r w' =>
      match r with None => refused w w' | Some (b, c) => new_chunk w w' c end).
  Proof.
    unfold alloc_slow. apply wlp_bind.
    assert (Hc : wlp (match root with Some r => c <- mload B (r + CUM) 8 ;; ret (Some c) | None => ret None end) w
                   (fun _ w' => w' = w)).
    { destruct root; [wl|]; wl; reflexivity. }
    eapply wlp_mono; [exact Hc|]. intros cum ? ->.
    destruct (next_chunk_size cum min l) as [size|]; [|wl; split; auto].
    wl. apply wlp_bind. unfold alloc_chunk.
    destruct (align_up size HDR_ALIGN) as [size'|]; [|wl; wl; split; auto].
    apply wlp_bind. eapply wlp_mono; [apply base_allocate_mem|]. intros r w1 (-> & T & Mx).
    destruct (st_alloc St (bw_trace w) (mkLayout size' HDR_ALIGN)) as [bb|] eqn:Es.
    - apply wlp_bind. eapply wlp_mono; [apply init_chunk_only|]. intros c w2 (-> & O1). wl.
      apply wlp_bind. eapply wlp_mono; [apply chunk_alloc_only|]. intros p w3 [O2 _].
      destruct p as [b'|]; [|wl]. wl. pose proof (only_trans _ _ _ _ O1 O2) as [T2 M2].
      exists (mkLayout size' HDR_ALIGN), bb. split; [congruence|]. split; [reflexivity|]. split; [exact Es|].
      intros x Hx. rewrite (M2 x Hx). apply Mx.
    - wl. wl. split; [|right; eexists; exact T]. intros x. apply Mx.
  Qed.

  (** ** The same for the arena *)

  Definition effect (w w' : bworld) (root' : option Z) : Prop :=
    refused w w' \/ exists c, root' = Some c /\ (only_header c w w' \/ new_chunk w w' c).

  Lemma effect_refl w root' : effect w w root'.
  Proof. left. split; auto. Qed.

  Lemma with_aw_wlp {C} (f : Arena -> M bworld (C * Arena)) aw Q :
    wlp (f (fst aw)) (snd aw) (fun r w' => Q (fst r) (snd r, w')) -> wlp (with_aw f) aw Q.
  Proof.
    intros H b aw' E. unfold with_aw in E. destruct (f (fst aw) (snd aw)) as [[c ar'] w'| | |] eqn:Ef; try discriminate.
    injection E as <- <-. apply (H _ _ Ef).
  Qed.

  Lemma allocate_effect l aw :
    wlp (blink_allocate B dbg l) aw (fun _ aw' => effect (snd aw) (snd aw') (ar_root (fst aw'))).
  Proof.
    unfold blink_allocate. apply wlp_bind. unfold alloc_fast. apply with_aw_wlp.
    assert (Hs : wlp (arena_alloc_slow B dbg l) (fst aw, snd aw)
                   (fun _ aw' => effect (snd aw) (snd aw') (ar_root (fst aw')))).
    { unfold arena_alloc_slow. apply with_aw_wlp. cbn [fst snd]. apply wlp_bind.
      eapply wlp_mono; [apply alloc_slow_mem|]. intros r w' H. destruct r as [[b c]|]; wl; cbn [fst snd ar_root].
      - right. exists c. auto.
      - left. exact H. }
    destruct (ar_root (fst aw)) as [r|] eqn:Er.
    - apply wlp_bind. eapply wlp_mono; [apply chunk_alloc_only|]. intros b w1 [O N]. wl. cbn [fst snd].
      destruct b as [b|].
      + wl. cbn [fst snd]. right. exists r. auto.
      + rewrite (N eq_refl). exact Hs.
    - wl. cbn [fst snd]. exact Hs.
  Qed.

  Lemma resize_effect ptr old new aw :
    wlp (blink_resize B dbg ptr old new) aw (fun r aw' =>
      match r with
      | None => effect (snd aw) (snd aw') (ar_root (fst aw'))
      | Some b => (b_ptr b = ptr /\ bw_trace (snd aw') = bw_trace (snd aw) /\ effect (snd aw) (snd aw') (ar_root (fst aw'))) \/
          exists w1, effect (snd aw) w1 (ar_root (fst aw')) /\
            copied w1 (snd aw') ptr (b_ptr b) (Z.min (l_size new) (l_size old))
      end).
  Proof.
    unfold blink_resize. apply wlp_bind. unfold resize_fast. apply with_aw_wlp.
    assert (Hs : wlp (arena_resize_slow B dbg ptr old new) (fst aw, snd aw) (fun r aw' =>
      match r with
      | None => effect (snd aw) (snd aw') (ar_root (fst aw'))
      | Some b => (b_ptr b = ptr /\ bw_trace (snd aw') = bw_trace (snd aw) /\ effect (snd aw) (snd aw') (ar_root (fst aw'))) \/
          exists w1, effect (snd aw) w1 (ar_root (fst aw')) /\
            copied w1 (snd aw') ptr (b_ptr b) (Z.min (l_size new) (l_size old))
      end)).
    { unfold arena_resize_slow. apply with_aw_wlp. cbn [fst snd]. unfold resize_slow. apply wlp_bind. apply wlp_bind.
      eapply wlp_mono; [apply alloc_slow_mem|]. intros r w' H. destruct r as [[b c]|].
      - apply wlp_bind. eapply wlp_mono; [apply mcopy_copied|]. intros ? w2 C. wl. wl. cbn [fst snd ar_root].
        right. exists w'. split; [|exact C]. right. exists c. auto.
      - wl. wl. cbn [fst snd]. left. exact H. }
    destruct (ar_root (fst aw)) as [r|] eqn:Er.
    - apply wlp_bind. eapply wlp_mono; [apply chunk_resize_mem|]. intros b w1 H. wl. cbn [fst snd].
      destruct b as [b|].
      + wl. cbn [fst snd]. rewrite Er. destruct H as [[E O]|(w2 & O & C)].
        * left. split; [exact E|]. split; [apply O|]. right. exists r. auto.
        * right. exists w2. split; [right; exists r; auto|exact C].
      + rewrite H. exact Hs.
    - wl. cbn [fst snd]. exact Hs.
  Qed.

  Lemma dealloc_effect ptr size aw :
    wlp (blink_deallocate B ptr size) aw (fun _ aw' =>
      fst aw' = fst aw /\ bw_trace (snd aw') = bw_trace (snd aw) /\ effect (snd aw) (snd aw') (ar_root (fst aw'))).
  Proof.
    unfold blink_deallocate, dealloc. apply with_aw_wlp. apply wlp_bind. unfold arena_dealloc.
    destruct (ar_root (fst aw)) as [r|] eqn:Er.
    - unfold chunk_dealloc. wl. apply wlp_bind. unfold cell_cas. wl. destruct (_ =? _).
      + wl. wl. wl. wl. cbn [fst snd]. split; [reflexivity|]. split; [reflexivity|]. right. exists r. split; [exact Er|].
        left. apply only_store; unfold CURSOR; lia.
      + wl. wl. wl. cbn [fst snd]. split; [reflexivity|]. split; [reflexivity|]. apply effect_refl.
    - wl. wl. cbn [fst snd]. split; [reflexivity|]. split; [reflexivity|]. apply effect_refl.
  Qed.

  (** [reset]: the header of the chunk kept, and what calls do. *)
  Lemma free_chain_mem n : forall c w,
    wlp (free_chain B n c) w (fun _ w' =>
      (exists evs, bw_trace w' = evs ++ bw_trace w) /\
      forall x, bw_mem w' x = later_calls (bw_trace w) (bw_trace w') (bw_mem w) x).
  Proof.
    induction n as [|n IH]; intros c w.
    - destruct c; cbn [free_chain]; [wl|wl]. split; [exists []; reflexivity|]. intros x. rewrite later_refl. reflexivity.
    - destruct c as [c|]; cbn [free_chain].
      2: { wl. split; [exists []; reflexivity|]. intros x. rewrite later_refl. reflexivity. }
      apply wlp_bind. unfold dealloc_chunk. wl. wl. apply wlp_bind.
      match goal with |- wlp (al_deallocate B c ?l) _ _ => set (lay := l) end.
      intros v w1 Ed. cbn in Ed. unfold base_deallocate in Ed. destruct (negb (req_okb smax lay)); [discriminate|].
      destruct (remove_fit c lay (outstanding (bw_trace w))); [|discriminate]. injection Ed as <- <-.
      wl. eapply wlp_mono; [apply IH|]. cbn [bw_trace bw_mem]. intros ? w2 ((evs & T) & Mx).
      split; [exists (evs ++ [EvDealloc c lay]); rewrite T, <- app_assoc; reflexivity|].
      intros x. rewrite (Mx x), T. pose proof (later_trans (bw_trace w) [EvDealloc c lay] evs (bw_mem w)) as X.
      cbn [app] in X. rewrite X. apply later_at. rewrite later_one. reflexivity.
  Qed.

  Lemma reset_mem keep aw :
    wlp (arena_reset B keep) aw (fun _ aw' =>
      forall x, (forall c, ar_root (fst aw') = Some c -> ~ header c x) ->
        bw_mem (snd aw') x = later_calls (bw_trace (snd aw)) (bw_trace (snd aw')) (bw_mem (snd aw)) x).
  Proof.
    unfold arena_reset. apply with_aw_wlp. destruct keep.
    - destruct (ar_root (fst aw)) as [r|] eqn:Er.
      + apply wlp_bind. unfold chunk_reset, chunk_cap. wl. apply wlp_bind. wl. wl. wl. wl. wl. wl. wl.
        apply wlp_bind. eapply wlp_mono; [apply free_chain_mem|]. cbn. intros ? w2 (_ & Mx). wl. cbn [fst snd ar_root].
        intros x Hx. specialize (Hx r eq_refl). rewrite (Mx x). apply later_at.
        unfold header, CURSOR, PREV, CUM in *. rewrite !store_other by lia. reflexivity.
      + wl. cbn [fst snd]. intros x _. rewrite later_refl. reflexivity.
    - apply wlp_bind. eapply wlp_mono; [apply free_chain_mem|]. intros ? w2 (_ & Mx). wl. cbn [fst snd].
      intros x _. apply Mx.
  Qed.

  (** ** What this means outside of headers *)

  Definition in_chunk_header (tr : list uevent) (x : Z) : Prop :=
    exists u, In u (outstanding tr) /\ header (u_ptr u) x.

  Lemma effect_at w w' root' : effect w w' root' ->
    (forall c, root' = Some c -> exists u, In u (outstanding (bw_trace w')) /\ u_ptr u = c) ->
    forall x, ~ in_chunk_header (bw_trace w') x ->
      bw_mem w' x = later_calls (bw_trace w) (bw_trace w') (bw_mem w) x.
  Proof.
    intros H Hr x Hx. destruct H as [[Mx T]|(c & Ec & H)].
    - rewrite (Mx x). destruct T as [->|(lay & ->)]; [rewrite later_refl|rewrite later_one]; reflexivity.
    - assert (Hc : ~ header c x).
      { intros Hh. destruct (Hr c Ec) as (u & Hu & <-). apply Hx. exists u. auto. }
      destruct H as [[T Mx]|(lay & b & T & _ & _ & Mx)].
      + rewrite T, later_refl. apply Mx. exact Hc.
      + rewrite T, later_one. apply Mx. exact Hc.
  Qed.

  Lemma effect_grows w w' root' x : effect w w' root' ->
    in_chunk_header (bw_trace w) x -> in_chunk_header (bw_trace w') x.
  Proof.
    intros H (u & Hu & Hx). exists u. split; [|exact Hx].
    destruct H as [[_ [->|(lay & ->)]]|(c & _ & [[-> _]|(lay & b & -> & _)])]; cbn [outstanding In]; auto.
  Qed.

  Lemma effect_keeps amax w w' root' y k : honest amax St -> effect w w' root' ->
    (forall u, In u (outstanding (bw_trace w')) -> 32 <= u_len u) ->
    In k (outstanding (bw_trace w)) -> in_u y k -> ~ in_chunk_header (bw_trace w) y ->
    ~ in_chunk_header (bw_trace w') y /\ forall m, later_calls (bw_trace w) (bw_trace w') m y = m y.
  Proof.
    intros [Hh _] H Hl Hk Hy Hn.
    destruct H as [[_ [->|(lay & ->)]]|(c & _ & [[-> _]|(lay & b & T & _ & Es & _)])].
    - split; [exact Hn|]. intros m. rewrite later_refl. reflexivity.
    - split; [exact Hn|]. intros m. rewrite later_one. reflexivity.
    - split; [exact Hn|]. intros m. rewrite later_refl. reflexivity.
    - destruct (Hh _ _ _ Es) as (_ & _ & D). rewrite Forall_forall in D. specialize (D k Hk y).
      rewrite T in *. cbn [outstanding] in *. split.
      + intros (u & [<-|Hu] & Hx).
        * apply D; [|exact Hy]. specialize (Hl _ (or_introl eq_refl)). unfold header, in_u in *.
          cbn [u_ptr u_len] in *. lia.
        * apply Hn. exists u. auto.
      + intros m. rewrite later_one. cbn [erased]. destruct (one_of (b_ptr b) (b_len b) y) eqn:E; [|reflexivity].
        apply one_of_spec in E. destruct D; [|exact Hy]. exact E.
  Qed.
End Effects.

(** ** Every operation *)
Section Contents.
  Variable su : setup.
  Hypothesis Hok : setup_ok su.
  Notation amax := (su_amax su).
  Notation bown := (base_own (su_amax su) (su_bmax su)).
  Notation brep := (arep (su_amax su) (bot su) (base_own (su_amax su) (su_bmax su))).
  Notation state := (cst (AW (W := bworld))).
  Notation pstep := (paper_step (su_min su) (su_smax su) (su_strat su)).
  Notation pbytes := (paper_contents (su_min su) (su_smax su) (su_strat su)).

  Lemma headers_iff cs st x : srep su cs st -> in_headers (bumps cs) x <-> in_chunk_header (calls st) x.
  Proof.
    intros (_ & Hh & _). unfold in_headers, in_chunk_header. change (outstanding (calls st)) with (held st).
    rewrite <- Hh. unfold bumps. split.
    - intros (k & Hk & Hx). apply in_map_iff in Hk. destruct Hk as (c & <- & Hc). exists (c_u c).
      split; [apply in_map; exact Hc|]. exact Hx.
    - intros (u & Hu & Hx). apply in_map_iff in Hu. destruct Hu as (c & <- & Hc). exists (bump c).
      split; [apply in_map; exact Hc|]. exact Hx.
  Qed.

  Lemma root_held cs st c : srep su cs st -> ar_root (fst (c_w st)) = Some c ->
    exists u, In u (outstanding (calls st)) /\ u_ptr u = c.
  Proof.
    intros (R & Hh & _) E. rewrite (ar_head _ _ _ _ _ _ _ _ R) in E. change (outstanding (calls st)) with (held st).
    rewrite <- Hh. destruct cs as [|c0 cs]; [discriminate|]. injection E as <-. exists (c_u c0).
    split; [left; reflexivity|reflexivity].
  Qed.

  Lemma held_len cs st u : srep su cs st -> In u (outstanding (calls st)) -> 32 <= u_len u.
  Proof.
    intros (R & Hh & _) Hu. change (outstanding (calls st)) with (held st) in Hu. rewrite <- Hh in Hu.
    apply in_map_iff in Hu. destruct Hu as (c & <- & Hc).
    apply (arep_chunk_ok _ _ _ _ (su_ct su Hok) _ _ _ _ _ c R Hc).
  Qed.

  Lemma block_place cs st u y : srep su cs st -> In u (live (c_tab st)) -> in_u y u ->
    (exists k, In k (outstanding (calls st)) /\ in_u y k) /\ ~ in_chunk_header (calls st) y.
  Proof.
    intros HS Hu Hy. pose proof HS as (R & Hh & _). split.
    - pose proof (ar_placed _ _ _ _ _ _ _ _ R) as P. unfold ArenaFacts.placed in P. rewrite Forall_forall in P.
      destruct (P u Hu) as (c & Hc & P1 & P2). exists (c_u c). split.
      + change (outstanding (calls st)) with (held st). rewrite <- Hh. apply in_map. exact Hc.
      + destruct (arep_chunk_ok _ _ _ _ (su_ct su Hok) _ _ _ _ _ c R Hc) as ((W1 & W2 & W3) & _).
        unfold in_u, c_base, c_end, c_ptr, HDR in *. lia.
    - rewrite <- (headers_iff cs st y HS). intros (k & Hk & Hx). unfold bumps in Hk. apply in_map_iff in Hk.
      destruct Hk as (c & <- & Hc).
      destruct (arep_us_not _ _ _ _ (su_ct su Hok) _ _ _ _ _ c u y R Hc Hu Hy) as [N _]. apply N. exact Hx.
  Qed.

  (** What holds of the memory so far. *)
  Definition contents (st : state) (m : mem) : Prop := forall x, ~ in_chunk_header (calls st) x -> memory st x = m x.

  Lemma after_effect cs cs' st st' w1 m : srep su cs st -> srep su cs' st' -> contents st m ->
    effect (su_strat su) (snd (c_w st)) w1 (ar_root (fst (c_w st'))) -> bw_trace w1 = calls st' ->
    forall x, ~ in_chunk_header (calls st') x -> bw_mem w1 x = later_calls (calls st) (calls st') m x.
  Proof.
    intros HS HS' Hm He T x Hx. rewrite <- T in Hx.
    rewrite (effect_at _ _ _ _ He) by
      (first [exact Hx | intros c Ec; rewrite T; apply (root_held cs' st' c HS' Ec)]).
    rewrite T. apply later_at. apply Hm. intros Hin. apply Hx. apply (effect_grows _ _ _ _ _ He Hin).
  Qed.

  Lemma source cs cs' st st' w1 m u y : srep su cs st -> srep su cs' st' -> contents st m ->
    effect (su_strat su) (snd (c_w st)) w1 (ar_root (fst (c_w st'))) -> bw_trace w1 = calls st' ->
    In u (live (c_tab st)) -> in_u y u -> bw_mem w1 y = m y.
  Proof.
    intros HS HS' Hm He T Hu Hy. destruct (block_place cs st u y HS Hu Hy) as ((k & Hk & Hky) & Hn).
    destruct (effect_keeps (su_strat su) amax _ _ _ y k (proj1 Hok) He) as [N L]; auto.
    { intros v Hv. rewrite T in Hv. apply (held_len cs' st' v HS' Hv). }
    rewrite T in N. rewrite (after_effect cs cs' st st' w1 m HS HS' Hm He T y N).
    rewrite T in L. apply L.
  Qed.

  Lemma disjoint_new cs st l b st1 u y : srep su cs st -> req_ok (su_smax su) l ->
    do_step su (OpAlloc l false) st = ORet (Some b) st1 -> In u (live (c_tab st)) ->
    in_u y u -> in_u y (mku b l) -> False.
  Proof.
    intros HS Hl E Hu Hy Hb.
    destruct (step_alloc su Hok cs st l false (Some b) st1 HS Hl E) as (_ & _ & Et & H).
    assert (HS1 : exists cs1, srep su cs1 st1).
    { destruct (fits_root cs l).
      - destruct H as (_ & c & cs' & b' & _ & _ & _ & HS'). eexists; exact HS'.
      - destruct H as (_ & _ & c & _ & _ & HS'). eexists; exact HS'. }
    destruct HS1 as (cs1 & R & _ & _). pose proof (ar_disj _ _ _ _ _ _ _ _ R) as D.
    rewrite Et, live_app in D. apply pairwise_app in D. destruct D as (_ & _ & D).
    apply (D u (mku b l) Hu (or_introl eq_refl) y Hy Hb).
  Qed.

  Lemma same_state st m : contents st m -> forall x, ~ in_chunk_header (calls st) x ->
    memory st x = later_calls (calls st) (calls st) m x.
  Proof. intros H x Hx. rewrite later_refl. apply H. exact Hx. Qed.

  Lemma step_contents o st cs r st' cs' m :
    srep su cs st -> do_step su o st = ORet r st' -> srep su cs' st' ->
    pstep o (sheet cs st) = (r, sheet cs' st') -> contents st m ->
    contents st' (paper_bytes o (sheet cs st) r (sheet cs' st') m).
  Proof.
    intros HS E HS' P Hm x Hx. destruct o as [l z|h off bs|h l|h old new|h old new|keep]; cbn [paper_bytes sheet p_calls p_tab].
    - (* allocate *)
      cbn [paper_step sheet p_chunks p_tab p_calls] in P.
      rewrite step_eq in E. unfold step_at in E. destruct (req_okb (su_smax su) l) eqn:Hl.
      2: { inversion E; subst. destruct z; apply (same_state st' m Hm x Hx). }
      assert (Lb : forall b, r = Some b -> b_len b = l_size l).
      { intros b ->. destruct (take (su_min su) (su_strat su) (bumps cs) l (calls st)) as [[[a|] ks] tr];
          inversion P; reflexivity. }
      unfold call in E.
      destruct ((if z then al_allocate_zeroed (ba su) l else al_allocate (ba su) l) (c_w st)) as [r0 aw'| | |] eqn:Ea;
        try discriminate. inversion E; subst r0 st'. clear E P.
      destruct z.
      + unfold al_allocate_zeroed, bind in Ea.
        destruct (al_allocate (ba su) l (c_w st)) as [r1 aw1| | |] eqn:E1; try discriminate.
        pose proof (allocate_effect _ _ _ _ _ _ _ E1) as He.
        destruct r1 as [b|].
        * unfold mfill in Ea. cbn in Ea. injection Ea as <- <-. specialize (Lb b eq_refl).
          unfold memory. cbn [c_w snd bw_mem]. cbn [c_w fst snd] in *.
          pose proof (after_effect cs cs' st _ (snd aw1) m HS HS' Hm He eq_refl x Hx) as A.
          unfold fill. rewrite Lb. fold (one_of (b_ptr b) (l_size l) x). rewrite A. reflexivity.
        * injection Ea as <- <-. apply (after_effect cs cs' st _ (snd aw1) m HS HS' Hm He eq_refl x Hx).
      + pose proof (allocate_effect _ _ _ _ _ _ _ Ea) as He.
        pose proof (after_effect cs cs' st _ (snd aw') m HS HS' Hm He eq_refl x Hx) as A.
        destruct r; exact A.
    - (* write *)
      rewrite step_eq in E. unfold step_at in E. destruct (get h (c_tab st)) as [u|].
      2: { inversion E; subst. apply Hm. exact Hx. }
      destruct ((0 <=? off) && (off + Z.of_nat (length bs) <=? u_len u)) eqn:C; cbn [andb].
      2: { inversion E; subst. apply Hm. exact Hx. }
      inversion E; subst. clear E. unfold memory, calls in *. cbn [c_w snd bw_mem ba blink al_set_mem al_mem bot base] in *.
      unfold write_cells. fold (one_of (u_ptr u + off) (Z.of_nat (length bs)) x).
      destruct (one_of _ _ x); [reflexivity|]. apply Hm. exact Hx.
    - (* deallocate *)
      rewrite step_eq in E. unfold step_at in E. destruct (get h (c_tab st)) as [u|].
      2: { inversion E; subst. apply (same_state st' m Hm x Hx). }
      destruct (fitsb l u).
      2: { inversion E; subst. apply (same_state st' m Hm x Hx). }
      unfold bind, call in E. destruct (al_deallocate (ba su) (u_ptr u) l (c_w st)) as [v aw'| | |] eqn:Ed; try discriminate.
      inversion E; subst. clear E. destruct (dealloc_effect _ _ _ _ _ _ _ Ed) as (_ & T & He).
      apply (after_effect cs cs' st _ (snd aw') m HS HS' Hm He eq_refl x Hx).
    - (* resize *)
      rewrite step_eq in E. unfold step_at in E. destruct (get h (c_tab st)) as [u|] eqn:G.
      2: { inversion E; subst. apply (same_state st' m Hm x Hx). }
      destruct (fitsb old u && req_okb (su_smax su) new) eqn:C.
      2: { inversion E; subst. apply (same_state st' m Hm x Hx). }
      apply andb_true_iff in C. destruct C as [Hf _]. apply fitsb_spec in Hf. destruct Hf as [_ Hf].
      assert (Ec : call (blink_resize (bot su) (su_dbg su) (u_ptr u) old new)
                     (on_ok (fun u' => set_nth h (Some u')) new) st = ORet r st').
      { destruct (l_size old <=? l_size new); exact E. }
      unfold call in Ec. destruct (blink_resize (bot su) (su_dbg su) (u_ptr u) old new (c_w st)) as [r0 aw'| | |] eqn:Er;
        try discriminate. inversion Ec; subst r0 st'. clear Ec E.
      assert (Hu : In u (live (c_tab st))).
      { destruct (get_split _ _ _ G) as (t1 & t2 & -> & _). rewrite live_app. apply in_or_app. right. left. reflexivity. }
      pose proof (resize_effect _ _ _ _ _ _ _ _ _ Er) as He. destruct r as [b|].
      + destruct He as [(Eb & T & He)|(w1 & He & T & Mc)].
        * pose proof (after_effect cs cs' st _ (snd aw') m HS HS' Hm He eq_refl x Hx) as A.
          unfold memory. cbn [c_w snd] in *. rewrite A. rewrite Eb.
          unfold calls in *. cbn [c_w snd] in *. rewrite T, later_refl.
          replace (u_ptr u + (x - u_ptr u)) with x by lia. destruct (one_of _ _ x); reflexivity.
        * cbn [c_w fst snd] in *.
          pose proof (after_effect cs cs' st _ w1 m HS HS' Hm He (eq_sym T) x Hx) as A.
          unfold memory. cbn [c_w snd]. rewrite Mc. unfold copy. rewrite (Z.min_comm (l_size old)).
          fold (one_of (b_ptr b) (Z.min (l_size new) (l_size old)) x).
          destruct (one_of (b_ptr b) (Z.min (l_size new) (l_size old)) x) eqn:O; [|exact A].
          apply one_of_spec in O.
          apply (source cs cs' st _ w1 m u _ HS HS' Hm He (eq_sym T) Hu). unfold in_u. lia.
      + apply (after_effect cs cs' st _ (snd aw') m HS HS' Hm He eq_refl x Hx).
    - (* grow_zeroed *)
      cbn [paper_step sheet p_chunks p_tab p_calls] in P.
      rewrite step_eq in E. unfold step_at in E. destruct (get h (c_tab st)) as [u|] eqn:G.
      2: { inversion E; subst. apply (same_state st' m Hm x Hx). }
      destruct (fitsb old u && req_okb (su_smax su) new && (l_size old <=? l_size new)) eqn:C.
      2: { inversion E; subst. apply (same_state st' m Hm x Hx). }
      assert (Lb : forall b, r = Some b -> b_len b = l_size new).
      { intros b ->. destruct (take (su_min su) (su_strat su) (bumps cs) new (calls st)) as [[[a|] ks] tr];
          inversion P; reflexivity. }
      apply andb_true_iff in C. destruct C as [C Hs]. apply andb_true_iff in C. destruct C as [Hf Hn].
      apply fitsb_spec in Hf. destruct Hf as [_ Hf].
      assert (Hu : In u (live (c_tab st))).
      { destruct (get_split _ _ _ G) as (t1 & t2 & -> & _). rewrite live_app. apply in_or_app. right. left. reflexivity. }
      unfold call in E.
      destruct (al_grow_zeroed (ba su) (u_ptr u) old new (c_w st)) as [r0 aw'| | |] eqn:Eg; try discriminate.
      inversion E; subst r0 st'. clear E P.
      unfold al_grow_zeroed, bind at 1, al_allocate_zeroed, bind at 1 in Eg.
      destruct (al_allocate (ba su) new (c_w st)) as [r1 aw1| | |] eqn:E1; try discriminate.
      pose proof (allocate_effect _ _ _ _ _ _ _ E1) as He.
      destruct r1 as [b|].
      2: { cbn in Eg. injection Eg as <- <-. apply (after_effect cs cs' st _ (snd aw1) m HS HS' Hm He eq_refl x Hx). }
      unfold bind, mfill in Eg. cbn in Eg. unfold mcopy in Eg.
      destruct ((l_size old =? 0) || (u_ptr u + l_size old <=? b_ptr b) || (b_ptr b + l_size old <=? u_ptr u)) eqn:Cd;
        [|discriminate].
      match type of Eg with match blink_deallocate _ _ _ ?a with _ => _ end = _ => set (aw2 := a) in Eg end.
      destruct (blink_deallocate (bot su) (u_ptr u) (l_size old) aw2) as [v aw3| | |] eqn:Ed; try discriminate.
      injection Eg as <- <-.
      destruct (dealloc_effect _ _ _ _ _ _ _ Ed) as (Ef & T & He2). specialize (Lb b eq_refl).
      assert (T1 : bw_trace (snd aw1) = bw_trace (snd aw3)) by (rewrite T; reflexivity).
      assert (He' : effect (su_strat su) (snd (c_w st)) (snd aw1) (ar_root (fst aw3))) by (rewrite Ef; exact He).
      pose proof (after_effect cs cs' st _ (snd aw1) m HS HS' Hm He' T1) as A.
      assert (D : memory (mkCst (on_ok (fun u' => set_nth h (Some u')) new (Some b) (c_tab st)) aw3) x = bw_mem (snd aw2) x).
      { unfold memory. cbn [c_w snd]. rewrite (effect_at _ _ _ _ He2).
        - rewrite T, later_refl. reflexivity.
        - intros c Ec. apply (root_held cs' _ c HS'). exact Ec.
        - exact Hx. }
      assert (X : bw_mem (snd aw2) x =
                  copy (fill (bw_mem (snd aw1)) (b_ptr b) (b_len b) (Byte 0)) (u_ptr u) (b_ptr b) (l_size old) x) by reflexivity.
      rewrite D, X. unfold copy, fill. fold (one_of (b_ptr b) (l_size old) x). rewrite Lb.
      destruct (one_of (b_ptr b) (l_size old) x) eqn:O.
      + apply one_of_spec in O.
        replace ((b_ptr b <=? u_ptr u + (x - b_ptr b)) && (u_ptr u + (x - b_ptr b) <? b_ptr b + l_size new)) with false.
        * apply (source cs cs' st _ (snd aw1) m u _ HS HS' Hm He' T1 Hu). unfold in_u. lia.
        * symmetry. apply one_of_not. intros Hin.
          assert (E2 : do_step su (OpAlloc new false) st = ORet (Some b) (mkCst (c_tab st ++ [Some (mku b new)]) aw1)).
          { rewrite step_eq. unfold step_at. rewrite Hn. unfold call. rewrite E1. reflexivity. }
          pose proof (disjoint_new cs st new b _ u (u_ptr u + (x - b_ptr b)) HS Hn E2 Hu) as Dj.
          apply Dj; unfold in_u; cbn [u_ptr u_len mku]; lia.
      + fold (one_of (b_ptr b) (l_size new) x). destruct (one_of (b_ptr b) (l_size new) x); [reflexivity|].
        apply A. exact Hx.
    - (* reset *)
      pose proof (reset_trace su Hok cs st keep HS) as H. apply wp_inv in H. destruct H as (v & aw' & Er & T).
      rewrite step_eq in E. unfold step_at, bind, call in E. rewrite Er in E. cbn [ret] in E. inversion E; subst r st'. clear E.
      assert (Ha : arena_reset (bot su) keep (c_w st) = ORet v aw') by (destruct keep; exact Er).
      pose proof (reset_mem _ _ _ _ _ _ Ha) as M.
      unfold memory. cbn [c_w snd].
      assert (Hr : forall c, ar_root (fst aw') = Some c -> ~ header c x).
      { intros c Ec Hh. apply Hx. destruct (root_held cs' _ c HS' Ec) as (u & Hu & <-). exists u. auto. }
      rewrite (M x Hr). unfold calls at 2. cbn [c_w snd]. rewrite T.
      change (bw_trace (snd (c_w st))) with (calls st). change (bw_mem (snd (c_w st))) with (memory st).
      destruct (existsb (fun k => one_of (p_at k) (p_len k) x) (bumps (if keep then tl cs else cs))) eqn:Ex.
      + apply existsb_exists in Ex. destruct Ex as (k & Hk & Hkx). apply one_of_spec in Hkx.
        rewrite (later_lost _ _ (memory st) x k Hk), (later_lost _ _ m x k Hk); unfold p_end; auto.
      + apply later_at. apply Hm. rewrite <- (headers_iff cs st x HS). intros (k & Hk & Hkx).
        assert (Hno : ~ In k (bumps (if keep then tl cs else cs))).
        { intros Hin. assert (Y : existsb (fun k => one_of (p_at k) (p_len k) x) (bumps (if keep then tl cs else cs)) = true).
          { apply existsb_exists. exists k. split; [exact Hin|]. apply one_of_spec.
            unfold bumps in Hk. apply in_map_iff in Hk. destruct Hk as (c & <- & Hc).
            pose proof HS as (R & _ & _).
            destruct (arep_chunk_ok _ _ _ _ (su_ct su Hok) _ _ _ _ _ c R Hc) as (_ & _ & _ & _ & L & _).
            unfold p_first in Hkx. cbn [bump p_at p_len] in *. unfold HDR in L. lia. }
          congruence. }
        destruct keep; [|exact (Hno Hk)].
        destruct cs as [|c cs]; [exact Hk|]. cbn [tl] in Hno. destruct Hk as [<-|Hk]; [|exact (Hno Hk)].
        apply Hx. rewrite <- (headers_iff cs' _ x HS').
        cbn [paper_step sheet p_chunks bumps map] in P. inversion P as [Ec].
        exists (mkP (p_at (bump c)) (p_len (bump c)) (p_first (bump c))). split; [|exact Hkx].
        left. reflexivity.
  Qed.

  Lemma run_contents ops : forall st cs rs st' m,
    srep su cs st -> do_run su ops st = ORet rs st' -> contents st m ->
    contents st' (pbytes ops (sheet cs st) m).
  Proof.
    induction ops as [|o ops IH]; intros st cs rs st' m HS E Hm; unfold do_run in E; cbn [run] in E.
    - inversion E; subst. exact Hm.
    - unfold bind in E. destruct (step (su_smax su) (ba su) (do_reset su) o st) as [r st1| | |] eqn:E1;
        [| discriminate E | discriminate E | discriminate E].
      destruct (run (su_smax su) (ba su) (do_reset su) ops st1) as [rs1 st2| | |] eqn:E2;
        [| discriminate E | discriminate E | discriminate E].
      cbn [ret] in E. inversion E; subst rs st2. clear E.
      destruct (step_exact su Hok o st cs r st1 HS E1) as (cs1 & HS1 & P1).
      cbn [paper_contents]. rewrite P1. apply (IH st1 cs1 rs1 st' _ HS1 E2).
      apply (step_contents o st cs r st1 cs1 m HS E1 HS1 P1 Hm).
  Qed.

  Lemma srep_headers cs st : srep su cs st -> headers_right (memory st) (bumps cs).
  Proof.
    intros (R & _ & _). pose proof (ar_chain _ _ _ _ _ _ _ _ R) as Hch.
    change (al_mem (bot su) (snd (c_w st))) with (memory st) in Hch. clear R.
    induction cs as [|c cs IH]; [exact Logic.I|].
    cbn [chain] in Hch. destruct Hch as (_ & (X1 & X2 & X3 & X4) & H). cbn [headers_right bumps map].
    unfold CURSOR in X1. rewrite Z.add_0_r in X1.
    split; [exact X1|]. split; [exact X2|]. split; [|split; [|apply IH; exact H]].
    - destruct cs; exact X3.
    - change (map bump cs) with (bumps cs). rewrite space_caps. exact X4.
  Qed.

  Lemma contents_exact ops :
    let '(rs, p) := paper_run (su_min su) (su_smax su) (su_strat su) ops paper0 in
    exists st, do_run su ops (start su) = ORet rs st /\
      (forall x, ~ in_headers (p_chunks p) x ->
         memory st x = paper_contents (su_min su) (su_smax su) (su_strat su) ops paper0 (fun _ => Undef) x) /\
      headers_right (memory st) (p_chunks p).
  Proof.
    destruct (run_total su Hok ops) as (rs & st & E & _ & _).
    assert (HS0 : srep su [] (start su)).
    { destruct (start_inv su Hok) as [(cs & R & Hj & Hm) _]. cbn in R, Hj, Hm.
      destruct cs as [|c cs]; [|discriminate Hj]. split; [exact R|]. split; [exact Hj|exact Hm]. }
    destruct (run_exact su Hok ops _ _ _ _ HS0 E) as (cs & HS & P).
    change (sheet [] (start su)) with paper0 in P. rewrite P.
    exists st. split; [exact E|]. cbn [sheet p_chunks]. split.
    - intros x Hx. rewrite (headers_iff cs st x HS) in Hx.
      apply (run_contents ops (start su) [] rs st (fun _ => Undef) HS0 E); [|exact Hx].
      intros y _. reflexivity.
    - apply srep_headers. exact HS.
  Qed.

  (** ** What a single operation can change *)

  Lemma take_calls ks l tr r ks' tr' : take (su_min su) (su_strat su) ks l tr = (r, ks', tr') ->
    tr' = tr \/ exists lay, tr' = EvAlloc lay (st_alloc (su_strat su) tr lay) :: tr.
  Proof.
    assert (Hf : forall r ks' tr', fresh (su_min su) (su_strat su) ks l tr = (r, ks', tr') ->
      tr' = tr \/ exists lay, tr' = EvAlloc lay (st_alloc (su_strat su) tr lay) :: tr).
    { intros r0 ks0 tr0 E. unfold fresh in E. destruct (chunk_size (su_min su) ks l) as [n|].
      - destruct (st_alloc (su_strat su) tr (mkLayout n 8)) as [b|] eqn:Es; inversion E; right; exists (mkLayout n 8);
          rewrite Es; reflexivity.
      - inversion E. auto. }
    unfold take. destruct ks as [|k older]; [apply Hf|].
    destruct (_ && _); [|apply Hf]. intros E. inversion E. auto.
  Qed.

  Lemma step_calls o p r p' : (forall keep, o <> OpReset keep) -> pstep o p = (r, p') ->
    p_calls p' = p_calls p \/
    exists lay, p_calls p' = EvAlloc lay (st_alloc (su_strat su) (p_calls p) lay) :: p_calls p.
  Proof.
    intros Hn E. destruct o as [l z|h off bs|h l|h old new|h old new|keep]; cbn [paper_step] in E.
    - destruct (req_okb (su_smax su) l); [|inversion E; auto].
      destruct (take (su_min su) (su_strat su) (p_chunks p) l (p_calls p)) as [[[a|] ks] tr] eqn:Et;
        apply take_calls in Et; inversion E; exact Et.
    - inversion E. auto.
    - destruct (get h (p_tab p)) as [u|]; [|inversion E; auto]. destruct (fitsb l u); inversion E; auto.
    - destruct (get h (p_tab p)) as [u|]; [|inversion E; auto].
      destruct (fitsb old u && req_okb (su_smax su) new); [|inversion E; auto].
      assert (Hm : forall q ks tr, moves (su_min su) (su_strat su) (p_chunks p) (u_ptr u) old new (p_calls p) = (q, ks, tr) ->
        tr = p_calls p \/ exists lay, tr = EvAlloc lay (st_alloc (su_strat su) (p_calls p) lay) :: p_calls p).
      { intros q ks tr. unfold moves. cbv zeta.
        destruct (take (su_min su) (su_strat su) (p_chunks p) new (p_calls p)) as [[q' ks'] tr'] eqn:Et.
        apply take_calls in Et. destruct (l_align new <=? l_align old).
        - destruct (l_size new <=? l_size old); [intros X; inversion X; auto|].
          destruct (p_chunks p) as [|k older]; [intros X; inversion X; subst; exact Et|].
          destruct (_ && _); intros X; inversion X; subst; auto.
        - intros X; inversion X; subst; exact Et. }
      destruct (moves (su_min su) (su_strat su) (p_chunks p) (u_ptr u) old new (p_calls p)) as [[[b|] ks] tr] eqn:Em;
        specialize (Hm _ _ _ eq_refl); inversion E; exact Hm.
    - destruct (get h (p_tab p)) as [u|]; [|inversion E; auto].
      destruct (_ && _ && _); [|inversion E; auto].
      destruct (take (su_min su) (su_strat su) (p_chunks p) new (p_calls p)) as [[[a|] ks] tr] eqn:Et;
        apply take_calls in Et; inversion E; exact Et.
    - destruct (Hn keep eq_refl).
  Qed.

  (** [x] is in a chunk that came or went. *)
  Definition chunk_moved (st st' : state) (x : Z) : Prop :=
    exists k, in_u x k /\ (In k (held st) /\ ~ In k (held st') \/ ~ In k (held st) /\ In k (held st')).

  Lemma new_calls_move cs cs' st st' o r m x : srep su cs st -> srep su cs' st' ->
    (forall keep, o <> OpReset keep) -> pstep o (sheet cs st) = (r, sheet cs' st') ->
    later_calls (calls st) (calls st') m x <> m x -> chunk_moved st st' x.
  Proof.
    intros HS HS' Hn P Hne. destruct (step_calls _ _ _ _ Hn P) as [T|(lay & T)]; cbn [sheet p_calls] in T;
      rewrite T in Hne.
    - rewrite later_refl in Hne. destruct Hne. reflexivity.
    - rewrite later_one in Hne. unfold erased in Hne.
      destruct (st_alloc (su_strat su) (calls st) lay) as [b|] eqn:Es; [|destruct Hne; reflexivity].
      destruct (one_of (b_ptr b) (b_len b) x) eqn:O; [|destruct Hne; reflexivity]. apply one_of_spec in O.
      exists (mkU (b_ptr b) (b_len b) lay). split; [exact O|]. right. split.
      + intros Hin. destruct (proj1 (proj1 Hok) _ _ _ Es) as (_ & _ & D). rewrite Forall_forall in D.
        apply (D _ Hin x O O).
      + unfold held. rewrite T. left. reflexivity.
  Qed.

  Lemma reset_moves cs cs' st st' keep r m x : srep su cs st -> srep su cs' st' ->
    pstep (OpReset keep) (sheet cs st) = (r, sheet cs' st') ->
    later_calls (calls st) (calls st') m x <> m x -> chunk_moved st st' x.
  Proof.
    intros HS HS' P Hne.
    assert (T : calls st' = give_back (bumps (if keep then tl cs else cs)) (calls st) /\
                map p_at (bumps cs') = map p_at (bumps (if keep then match cs with [] => [] | c :: _ => [c] end else []))).
    { destruct keep; cbn [paper_step sheet p_chunks p_calls p_tab] in P.
      - destruct cs as [|c cs]; cbn [bumps map] in P; unfold sheet in P.
        + pose proof (f_equal (fun q => p_chunks (snd q)) P) as P1. pose proof (f_equal (fun q => p_calls (snd q)) P) as P2.
          cbn in P1, P2. rewrite <- P2, <- P1. auto.
        + pose proof (f_equal (fun q => p_chunks (snd q)) P) as P1. pose proof (f_equal (fun q => p_calls (snd q)) P) as P2.
          cbn [snd p_chunks p_calls] in P1, P2. rewrite <- P2, <- P1. auto.
      - pose proof (f_equal (fun q => p_chunks (snd q)) P) as P1. pose proof (f_equal (fun q => p_calls (snd q)) P) as P2.
        cbn [snd p_chunks p_calls sheet] in P1, P2. rewrite <- P2, <- P1. auto. }
    destruct T as [T Pc]. rewrite T in Hne.
    assert (Hk : exists c, In c (if keep then tl cs else cs) /\ c_ptr c <= x < c_end c).
    { clear - Hne. revert Hne. set (ds := if keep then tl cs else cs). generalize (calls st). intros tr. clearbody ds. clear.
      revert tr m. induction ds as [|c ds IH]; intros tr m Hne.
      - cbn [bumps map give_back] in Hne. rewrite later_refl in Hne. destruct Hne. reflexivity.
      - cbn [bumps map give_back] in Hne. set (e := EvDealloc (p_at (bump c)) (mkLayout (p_len (bump c)) 8)) in *.
        destruct (one_of (c_ptr c) (u_len (c_u c)) x) eqn:O.
        + apply one_of_spec in O. exists c. split; [left; reflexivity|]. unfold c_end. exact O.
        + change (map bump ds) with (bumps ds) in Hne.
          destruct (give_back_app (bumps ds) (e :: tr)) as (evs & Ev).
          pose proof (later_trans tr [e] evs m) as X. cbn [app] in X. rewrite Ev, X, <- Ev in Hne.
          destruct (IH (e :: tr) (later_calls tr (e :: tr) m)) as (c' & Hc' & Hx).
          { intros Y. apply Hne. rewrite Y, later_one. unfold e, erased. cbn [l_size bump p_at p_len]. rewrite O. reflexivity. }
          exists c'. split; [right; exact Hc'|exact Hx]. }
    destruct Hk as (c & Hc & Hx). exists (c_u c). split; [exact Hx|]. left.
    pose proof HS as (R & Hh & _). pose proof HS' as (_ & Hh' & _).
    assert (Hin : In c cs) by (destruct keep; [destruct cs; [destruct Hc|right; exact Hc]|exact Hc]).
    split.
    - rewrite <- Hh. apply in_map. exact Hin.
    - intros Hu. rewrite <- Hh' in Hu.
      assert (Hp : In (c_ptr c) (map p_at (bumps cs'))).
      { unfold bumps. rewrite map_map. apply in_map_iff in Hu. destruct Hu as (c' & Ec & Hc').
        apply in_map_iff. exists c'. split; [|exact Hc']. cbn [bump p_at]. unfold c_ptr. rewrite Ec. reflexivity. }
      rewrite Pc in Hp. destruct keep; [|destruct Hp].
      destruct cs as [|c0 cs]; [destruct Hp|]. destruct Hp as [Hp|[]]. cbn [bump p_at] in Hp. cbn [tl] in Hc.
      pose proof (arep_head_disj _ _ _ _ (su_ct su Hok) _ _ _ _ _ _ c R Hc) as D.
      destruct (arep_chunk_ok _ _ _ _ (su_ct su Hok) _ _ _ _ _ c0 R (or_introl eq_refl)) as (_ & _ & _ & _ & L0 & _).
      destruct (arep_chunk_ok _ _ _ _ (su_ct su Hok) _ _ _ _ _ c R (or_intror Hc)) as (_ & _ & _ & _ & L1 & _).
      unfold HDR, c_end, c_ptr in *. lia.
  Qed.

  Lemma footprint ops o r st st' x : reached su ops st -> do_step su o st = ORet r st' ->
    memory st' x <> memory st x ->
    (exists k, In k (held st') /\ u_ptr k <= x < u_ptr k + HEADER) \/
    chunk_moved st st' x \/
    match o, r with
    | OpAlloc l true, Some b => b_ptr b <= x < b_ptr b + l_size l
    | OpWrite h off cs, _ => exists u, get h (c_tab st) = Some u /\ u_ptr u + off <= x < u_ptr u + off + Z.of_nat (length cs)
    | OpResize _ old new, Some b => b_ptr b <= x < b_ptr b + Z.min (l_size old) (l_size new)
    | OpGrowZeroed _ old new, Some b => b_ptr b <= x < b_ptr b + l_size new
    | _, _ => False
    end.
  Proof.
    intros Hr E Hne. destruct (reached_srep su Hok ops st Hr) as (cs & HS).
    destruct (step_exact su Hok o st cs r st' HS E) as (cs' & HS' & P).
    pose proof (step_contents o st cs r st' cs' (memory st) HS E HS' P (fun x _ => eq_refl)) as C.
    destruct (existsb (fun k => one_of (u_ptr k) 32 x) (held st')) eqn:Ex.
    { left. apply existsb_exists in Ex. destruct Ex as (k & Hk & Hkx). apply one_of_spec in Hkx. exists k. auto. }
    right.
    assert (Hx : ~ in_chunk_header (calls st') x).
    { intros (k & Hk & Hkx). assert (Y : existsb (fun k => one_of (u_ptr k) 32 x) (held st') = true).
      { apply existsb_exists. exists k. split; [exact Hk|]. apply one_of_spec. exact Hkx. }
      congruence. }
    rewrite (C x Hx) in Hne. clear C Hx Ex.
    assert (Hmv : later_calls (calls st) (calls st') (memory st) x <> memory st x -> chunk_moved st st' x).
    { intros L. destruct o as [l z|h off bs|h l|h old new|h old new|keep];
        try (eapply new_calls_move; [exact HS|exact HS'| |exact P|exact L]; intros ?; discriminate).
      apply (reset_moves cs cs' st st' keep r (memory st) x HS HS' P L). }
    destruct o as [l z|h off bs|h l|h old new|h old new|keep]; cbn [paper_bytes sheet p_calls p_tab] in Hne.
    - destruct z, r as [b|]; try (left; apply Hmv; exact Hne).
      destruct (one_of (b_ptr b) (l_size l) x) eqn:O; [|left; apply Hmv; exact Hne].
      right. apply one_of_spec in O. exact O.
    - right. destruct (get h (c_tab st)) as [u|]; [|destruct Hne; reflexivity].
      destruct (_ && _ && one_of (u_ptr u + off) (Z.of_nat (length bs)) x) eqn:O; [|destruct Hne; reflexivity].
      apply andb_true_iff in O. destruct O as [_ O]. apply one_of_spec in O. exists u. split; [reflexivity|exact O].
    - left. apply Hmv. destruct r; exact Hne.
    - destruct r as [b|]; [|left; apply Hmv; exact Hne].
      destruct (get h (c_tab st)) as [u|]; [|destruct Hne; reflexivity].
      destruct (one_of (b_ptr b) (Z.min (l_size old) (l_size new)) x) eqn:O; [|left; apply Hmv; exact Hne].
      right. apply one_of_spec in O. exact O.
    - destruct r as [b|]; [|left; apply Hmv; exact Hne].
      destruct (get h (c_tab st)) as [u|] eqn:G; [|destruct Hne; reflexivity].
      assert (Ls : l_size old <= l_size new).
      { cbn [paper_step sheet p_tab] in P. rewrite G in P.
        destruct (fitsb old u && req_okb (su_smax su) new && (l_size old <=? l_size new)) eqn:Q;
          [|discriminate P]. apply andb_true_iff in Q. destruct Q as [_ Q]. lia. }
      destruct (one_of (b_ptr b) (l_size old) x) eqn:O.
      + right. apply one_of_spec in O. lia.
      + destruct (one_of (b_ptr b) (l_size new) x) eqn:O2; [|left; apply Hmv; exact Hne].
        right. apply one_of_spec in O2. exact O2.
    - left. apply Hmv. destruct r; exact Hne.
  Qed.
End Contents.
