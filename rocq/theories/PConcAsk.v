(** The deputy of the shared allocator meets the contract, and what a proxy asks it for
    depends on the chunks of the proxy only. *)
From Coq Require Import Permutation.
From Verif Require Import Base BaseFacts Alloc AllocFacts Arena ArenaFacts ArenaInv ArenaOps BlinkAlloc BlinkFacts
  History HistoryFacts Setup Proxy Conc PConc.

Lemma layout_eqb_eq a b : layout_eqb a b = true <-> a = b.
Proof.
  unfold layout_eqb. rewrite andb_true_iff, !Z.eqb_eq. destruct a, b; cbn. split; [intros [-> ->]; reflexivity|].
  intros E; inversion E; auto.
Qed.

(** ** The contract *)

Definition avail (d : dw) : list ublock :=
  match d_ans d with Some (l, Some b) => [mkU (b_ptr b) (b_len b) l] | _ => [] end.

(** The blocks [K] are the proxy's, among them the answer; memory elsewhere is as in [m0]. *)
Definition dep (K : list ublock) (m0 : mem) (d : dw) (us : list ublock) : Prop :=
  (exists lost, Permutation (us ++ lost ++ avail d) K) /\
  forall x, (forall u, In u K -> ~ in_u x u) -> d_mem d x = m0 x.

Lemma deputy_ok amax smax K m0 : Forall (u_ok amax) K -> pairwise disjoint_u K ->
  contract amax smax deputy (dep K m0).
Proof.
  intros Ok Dj. constructor.
  - intros d us us' [(lost & P) S] P'. split; [|exact S]. exists lost. rewrite <- P'. exact P.
  - intros d us [(lost & P) _]. split.
    + apply (Permutation_Forall (Permutation_sym P)) in Ok. apply Forall_app in Ok. tauto.
    + apply (pairwise_perm _ disjoint_u_sym _ _ (Permutation_sym P)) in Dj. apply pairwise_app in Dj. tauto.
  - reflexivity.
  - intros d us m [(lost & P) S] Hm. split; [exists lost; exact P|]. cbn [deputy al_set_mem d_mem].
    intros x Hx. rewrite <- (S x Hx). apply Hm. intros u Hu. apply Hx. apply (Permutation_in u P). apply in_or_app. auto.
  - intros d us l [(lost & P) S] _. unfold wp. cbn [deputy al_allocate al_mem].
    assert (Hn : forall a, d_mem d = d_mem d /\ (d_ans a = d_ans d -> d_mem a = d_mem d -> dep K m0 a us)).
    { intros a. split; [reflexivity|]. intros E1 E2. split; [exists lost; unfold avail in *; rewrite E1; exact P|].
      rewrite E2. exact S. }
    destruct (d_ans d) as [[l' r]|] eqn:Ea.
    + destruct (layout_eqb l l') eqn:El.
      * apply layout_eqb_eq in El. subst l'. cbn [d_mem]. split; [intros u x _ _; reflexivity|].
        unfold avail in P. rewrite Ea in P. destruct r as [b|].
        -- assert (Hin : In (mkU (b_ptr b) (b_len b) l) K).
           { apply (Permutation_in _ P). apply in_or_app. right. apply in_or_app. right. left. reflexivity. }
           rewrite Forall_forall in Ok. destruct (Ok _ Hin) as (G & _). split; [destruct b; exact G|].
           split; [|exact S]. exists lost. unfold avail. cbn [d_ans]. rewrite app_nil_r.
           rewrite <- P. rewrite app_assoc. apply Permutation_cons_append.
        -- split; [|exact S]. exists lost. unfold avail. cbn [d_ans]. exact P.
      * split; [intros u x _ _; reflexivity|]. apply Hn; reflexivity.
    + split; [intros u x _ _; reflexivity|]. apply Hn; cbn; auto.
  - intros d us u l [(lost & P) S] _. unfold wp. cbn [deputy al_deallocate ret]. split; [intros v x _ _; reflexivity|].
    split; [|exact S]. exists (u :: lost). rewrite <- P. cbn [app]. rewrite <- Permutation_middle. reflexivity.
  - intros d us u old new [P S] _ _ _. unfold wp. cbn [deputy al_grow ret]. split; [intros v x _ _; reflexivity|].
    split; [intros v x _ _; reflexivity|]. split; assumption.
  - intros d us u old new [P S] _ _ _. unfold wp. cbn [deputy al_shrink ret]. split; [intros v x _ _; reflexivity|].
    split; [intros v x _ _; reflexivity|]. split; assumption.
Qed.

(** ** What is asked for *)

Section Asks.
  Variable dbg : bool.

  (** The request changes from the initial one to [x], if that is one. *)
  Definition orelse (x y : option Layout) : option Layout := match x with Some _ => x | None => y end.
  Definition asks {B} (m : M dw B) (d : dw) (x : option Layout) : Prop :=
    match m d with ORet _ d' | OPanic d' => d_asked d' = orelse x (d_asked d) | _ => True end.
  (** [m] makes no request. *)
  Definition mute {B} (m : M dw B) : Prop := forall d, asks m d None.
  Definition asksA {B} (m : M (AW (W := dw)) B) (aw : AW (W := dw)) (x : option Layout) : Prop :=
    match m aw with ORet _ aw' | OPanic aw' => d_asked (snd aw') = orelse x (d_asked (snd aw)) | _ => True end.
  Definition muteA {B} (m : M (AW (W := dw)) B) : Prop := forall aw, asksA m aw None.

  Lemma mute_ret {B} (b : B) : mute (ret b).
  Proof. intros d. reflexivity. Qed.
  Lemma mute_ub {B} : mute (@ub dw B).
  Proof. intros d. exact I. Qed.
  Lemma mute_panic {B} : mute (@panic dw B).
  Proof. intros d. reflexivity. Qed.
  Lemma mute_bind {B C} (m : M dw B) (f : B -> M dw C) : mute m -> (forall b, mute (f b)) -> mute (bind m f).
  Proof.
    intros H1 H2 d. specialize (H1 d). unfold asks, bind in *. destruct (m d) as [b d1|d1| |]; auto.
    specialize (H2 b d1). unfold asks in H2. cbn [orelse] in *. destruct (f b d1); auto; congruence.
  Qed.
  Lemma mute_assert b : mute (debug_assert dbg b).
  Proof. unfold debug_assert. destruct (dbg && negb b); [apply mute_panic|apply mute_ret]. Qed.
  Lemma mute_add a b : mute (add_usize dbg a b).
  Proof. unfold add_usize. destruct (_ <=? _); [apply mute_ret|]. destruct dbg; [apply mute_panic|apply mute_ret]. Qed.
  Lemma mute_sub a b : mute (sub_usize dbg a b).
  Proof. unfold sub_usize. destruct (_ <=? _); [apply mute_ret|]. destruct dbg; [apply mute_panic|apply mute_ret]. Qed.
  Lemma mute_ptr_add a b : mute (ptr_add a b).
  Proof. unfold ptr_add. destruct (_ <=? _); [apply mute_ret|apply mute_ub]. Qed.
  Lemma mute_load a n : mute (mload deputy a n).
  Proof. intros d. unfold asks, mload. destruct (load _ _ _); cbn; auto. Qed.
  Lemma mute_store a n v : mute (mstore deputy a n v).
  Proof. intros d. reflexivity. Qed.
  Lemma mute_copy s t n : mute (mcopy deputy s t n).
  Proof. intros d. unfold asks, mcopy. destruct (_ || _); cbn; auto. Qed.
  Lemma mute_fill a n c : mute (mfill deputy a n c).
  Proof. intros d. reflexivity. Qed.

  Ltac mutes := repeat first [match goal with |- mute (bind _ _) => apply mute_bind; [|intros ?] end | apply mute_ret | apply mute_ub | apply mute_panic
    | apply mute_assert | apply mute_add | apply mute_sub | apply mute_ptr_add | apply mute_load | apply mute_store
    | apply mute_copy | apply mute_fill].

  Lemma mute_attempt l c e : mute (alloc_attempt dbg l c e).
  Proof.
    unfold alloc_attempt, layout_sum. mutes. destruct (checked_add _ _); mutes. destruct (_ <? _); mutes.
  Qed.
  Lemma mute_chunk_alloc p l : mute (chunk_alloc deputy dbg p l).
  Proof.
    unfold chunk_alloc. mutes; [apply mute_attempt|]. destruct b1 as [[al nx]|]; mutes. unfold cell_cas_weak. mutes.
  Qed.
  Lemma mute_cas p a b : mute (cell_cas deputy p a b).
  Proof. unfold cell_cas. mutes. destruct (_ =? _); mutes. Qed.
  Lemma mute_realloc p ptr old new : mute (chunk_realloc deputy dbg p ptr old new).
  Proof. unfold chunk_realloc. apply mute_bind; [apply mute_chunk_alloc|]. intros [b|]; mutes. Qed.
  Lemma mute_resize p ptr old new : mute (chunk_resize deputy dbg p ptr old new).
  Proof.
    unfold chunk_resize. destruct (_ <=? _); [|apply mute_realloc]. destruct (_ <=? _); mutes.
    destruct (_ =? _); [|apply mute_realloc]. destruct (checked_add _ _); mutes. destruct (_ <? _); mutes; [apply mute_cas|].
    destruct b3; mutes. apply mute_realloc.
  Qed.
  Lemma mute_init b prev : mute (init_chunk deputy dbg b prev).
  Proof. unfold init_chunk. mutes. destruct prev; mutes. unfold chunk_cap. mutes. Qed.
  Lemma mute_with_aw {B} (f : Arena -> M dw (B * Arena)) : (forall ar, mute (f ar)) -> muteA (with_aw f).
  Proof.
    intros H [ar d]. specialize (H ar d). unfold asksA, with_aw, asks in *. cbn [fst snd] in *.
    destruct (f ar d) as [[b ar'] d'|d'| |]; auto.
  Qed.
  Lemma muteA_bind {B C} (m : M (AW (W := dw)) B) (f : B -> M (AW (W := dw)) C) : muteA m -> (forall b, muteA (f b)) -> muteA (bind m f).
  Proof.
    intros H1 H2 d. specialize (H1 d). unfold asksA, bind in *. destruct (m d) as [b d1|d1| |]; auto.
    specialize (H2 b d1). unfold asksA in H2. cbn [orelse] in *. destruct (f b d1); auto; congruence.
  Qed.
  Lemma asksA_bind {B C} (m : M (AW (W := dw)) B) (f : B -> M (AW (W := dw)) C) aw x :
    asksA m aw x -> (forall b, muteA (f b)) -> asksA (bind m f) aw x.
  Proof.
    intros H1 H2. unfold asksA, bind in *. destruct (m aw) as [b d1|d1| |]; auto.
    specialize (H2 b d1). unfold asksA in H2. cbn [orelse] in H2. destruct (f b d1); auto; congruence.
  Qed.
  Lemma asks_bind {B C} (m : M dw B) (f : B -> M dw C) d x :
    asks m d x -> (forall b, mute (f b)) -> asks (bind m f) d x.
  Proof.
    intros H1 H2. unfold asks, bind in *. destruct (m d) as [b d1|d1| |]; auto.
    specialize (H2 b d1). unfold asks in H2. cbn [orelse] in H2. destruct (f b d1); auto; congruence.
  Qed.
  Lemma mute_dealloc ptr n : muteA (dealloc deputy ptr n).
  Proof.
    apply mute_with_aw. intros ar. unfold arena_dealloc. destruct (ar_root ar); mutes. unfold chunk_dealloc. mutes. apply mute_cas.
  Qed.
  Lemma muteA_of {B} (m : M dw B) (f : M (AW (W := dw)) B) : mute m ->
    (forall aw, f aw = match m (snd aw) with ORet b d => ORet b (fst aw, d) | OPanic d => OPanic (fst aw, d) | OAbort => OAbort | OUB => OUB end) ->
    muteA f.
  Proof. intros H E aw. unfold asksA. rewrite E. specialize (H (snd aw)). unfold asks in H. destruct (m (snd aw)); auto. Qed.
  Lemma muteA_fill a n c : muteA (mfill (blink deputy dbg) a n c).
  Proof. apply (muteA_of (mfill deputy a n c)); [apply mute_fill|]. intros [ar d]. reflexivity. Qed.
  Lemma muteA_copy s t n : muteA (mcopy (blink deputy dbg) s t n).
  Proof.
    apply (muteA_of (mcopy deputy s t n)); [apply mute_copy|]. intros [ar d]. unfold mcopy. cbn [fst snd].
    destruct (_ || _); reflexivity.
  Qed.
  Lemma muteA_ret {B} (b : B) : muteA (ret b).
  Proof. intros aw. reflexivity. Qed.

  (** The request of [alloc_slow] on these chunks. *)
  Definition want_slow (cs : list chunk) (min : Z) (l : Layout) : option Layout :=
    match next_chunk_size (cum_of cs) min l with
    | None => None
    | Some s => if dbg && negb (s mod HDR_ALIGN =? 0) then None
                else match align_up s HDR_ALIGN with None => None | Some s' => Some (mkLayout s' HDR_ALIGN) end
    end.
  Lemma want_slow_req cs min l lay : want_slow cs min l = Some lay -> slow_req cs min l = Some lay.
  Proof.
    unfold want_slow, slow_req. destruct (next_chunk_size _ _ _); [|discriminate]. destruct (dbg && _); [discriminate|]. auto.
  Qed.

  Lemma deputy_asks l d : asks (al_allocate deputy l) d (Some l).
  Proof.
    unfold asks. cbn [deputy al_allocate]. destruct (d_ans d) as [[l' r]|]; [|reflexivity]. destruct (layout_eqb l l'); reflexivity.
  Qed.
  Lemma slow_asks cs min l d : chain (d_mem d) cs -> asks (alloc_slow deputy dbg (head_ptr cs) min l) d (want_slow cs min l).
  Proof.
    intros Hc. unfold alloc_slow.
    assert (E : (match head_ptr cs with Some r => c <- mload deputy (r + CUM) 8 ;; ret (Some c) | None => ret None end) d
                = ORet (cum_of cs) d).
    { destruct cs as [|c cs]; cbn [head_ptr cum_of]; [reflexivity|]. cbn [chain] in Hc. destruct Hc as (_ & (_ & _ & _ & H4) & _).
      unfold bind. rewrite (mload_eq deputy _ _ _ d H4). reflexivity. }
    unfold asks. unfold bind at 1. rewrite E. unfold want_slow. destruct (next_chunk_size (cum_of cs) min l) as [s|]; [|reflexivity].
    unfold debug_assert. destruct (dbg && negb (s mod HDR_ALIGN =? 0)); [reflexivity|]. unfold bind at 1. cbn [ret].
    match goal with |- match ?m d with _ => _ end => change (asks m d (match align_up s HDR_ALIGN with None => None | Some s' => Some (mkLayout s' HDR_ALIGN) end)) end.
    apply asks_bind.
    - unfold alloc_chunk. destruct (align_up s HDR_ALIGN) as [s'|]; [|reflexivity]. apply asks_bind; [apply deputy_asks|].
      intros [b|]; mutes. apply mute_init.
    - intros [c|]; mutes; [apply mute_chunk_alloc|]. destruct b; mutes.
  Qed.

  (** The root chunk has room. *)
  Definition root_room (cs : list chunk) (l : Layout) : bool :=
    match cs with [] => false | c :: _ => room (c_cur c) (c_end c) l end.
  Definition resize_room (cs : list chunk) (ptr : Z) (old new : Layout) : bool :=
    match cs with
    | [] => false
    | c :: _ =>
        if l_align new <=? l_align old then
          if l_size new <=? l_size old then true
          else if c_cur c =? ptr + l_size old then
            match checked_add ptr (l_size new) with Some n => negb (c_end c <? n) | None => false end
          else room (c_cur c) (c_end c) new
        else room (c_cur c) (c_end c) new
    end.
  Definition chunks_fit (cs : list chunk) : Prop := Forall (fun c => 0 <= c_ptr c /\ c_end c <= USIZE_MAX) cs.

  Variable psmax : Z.
  Hypothesis Hps : psmax <= USIZE_MAX.

  Lemma head_facts c cs m : chain m (c :: cs) -> chunks_fit (c :: cs) ->
    load m (c_ptr c + CURSOR) 8 = Some (c_cur c) /\ load m (c_ptr c + END) 8 = Some (c_end c) /\
    0 <= c_cur c /\ c_end c <= USIZE_MAX.
  Proof.
    intros Hc Hf. cbn [chain] in Hc. destruct Hc as ((_ & _ & W1) & (H1 & H2 & _) & _). apply Forall_inv in Hf.
    split; [exact H1|]. split; [exact H2|]. unfold c_base, HDR in W1. lia.
  Qed.

  Lemma allocate_asks cs ar d l : chain (d_mem d) cs -> chunks_fit cs -> ar_root ar = head_ptr cs -> req_ok psmax l ->
    asksA (blink_allocate deputy dbg l) (ar, d) (if root_room cs l then None else want_slow cs (ar_min ar) l).
  Proof.
    intros Hc Hf Hr Hl. unfold blink_allocate.
    assert (Hslow : asksA (arena_alloc_slow deputy dbg l) (ar, d) (want_slow cs (ar_min ar) l)).
    { unfold arena_alloc_slow, asksA, with_aw. cbn [fst snd]. rewrite Hr.
      pose proof (asks_bind (alloc_slow deputy dbg (head_ptr cs) (ar_min ar) l)
        (fun r => match r with None => ret (None, ar) | Some (b, c) => ret (Some b, mkArena (Some c) (ar_min ar) (S (ar_depth ar))) end) d
        (want_slow cs (ar_min ar) l) (slow_asks cs (ar_min ar) l d Hc)) as H.
      unfold asks in H. destruct (bind _ _ d) as [[b ar'] d'|d'| |]; auto; apply H; intros [[b' c']|]; mutes. }
    unfold asksA, bind. unfold alloc_fast, with_aw. cbn [fst snd]. rewrite Hr. destruct cs as [|c cs]; cbn [head_ptr root_room].
    - exact Hslow.
    - destruct (head_facts _ _ _ Hc Hf) as (H1 & H2 & H3 & H4).
      pose proof (chunk_alloc_eq deputy dbg (c_ptr c) l (c_cur c) (c_end c) psmax d Hl Hps H3 H4 H1 H2) as E. cbv zeta in E.
      unfold bind. rewrite E. destruct (room (c_cur c) (c_end c) l); cbn [ret]; [reflexivity|]. exact Hslow.
  Qed.

  Lemma resize_asks cs ar d ptr old new : chain (d_mem d) cs -> chunks_fit cs -> ar_root ar = head_ptr cs -> req_ok psmax new ->
    asksA (blink_resize deputy dbg ptr old new) (ar, d) (if resize_room cs ptr old new then None else want_slow cs (ar_min ar) new).
  Proof.
    intros Hc Hf Hr Hl. unfold blink_resize.
    assert (Hslow : asksA (arena_resize_slow deputy dbg ptr old new) (ar, d) (want_slow cs (ar_min ar) new)).
    { unfold arena_resize_slow, asksA, with_aw. cbn [fst snd]. rewrite Hr.
      pose proof (asks_bind (resize_slow deputy dbg (head_ptr cs) (ar_min ar) ptr old new)
        (fun r => match r with None => ret (None, ar) | Some (b, c) => ret (Some b, mkArena (Some c) (ar_min ar) (S (ar_depth ar))) end) d
        (want_slow cs (ar_min ar) new)) as H.
      assert (H0 : asks (resize_slow deputy dbg (head_ptr cs) (ar_min ar) ptr old new) d (want_slow cs (ar_min ar) new)).
      { unfold resize_slow. apply asks_bind; [apply slow_asks; exact Hc|]. intros [[b c]|]; mutes. }
      specialize (H H0). unfold asks in H. destruct (bind _ _ d) as [[b ar'] d'|d'| |]; auto; apply H; intros [[b' c']|]; mutes. }
    unfold asksA, bind. unfold resize_fast, with_aw. cbn [fst snd]. rewrite Hr. destruct cs as [|c cs]; cbn [head_ptr].
    - exact Hslow.
    - destruct (head_facts _ _ _ Hc Hf) as (H1 & H2 & H3 & H4).
      assert (Hres : match chunk_resize deputy dbg (c_ptr c) ptr old new d with
        | ORet None d' => resize_room (c :: cs) ptr old new = false /\ d' = d
        | ORet (Some _) d' => resize_room (c :: cs) ptr old new = true /\ d_asked d' = d_asked d
        | OPanic d' => resize_room (c :: cs) ptr old new = true /\ d_asked d' = d_asked d
        | _ => True end).
      { assert (Hre : match chunk_realloc deputy dbg (c_ptr c) ptr old new d with
          | ORet None d' => room (c_cur c) (c_end c) new = false /\ d' = d
          | ORet (Some _) d' => room (c_cur c) (c_end c) new = true /\ d_asked d' = d_asked d
          | OPanic d' => room (c_cur c) (c_end c) new = true /\ d_asked d' = d_asked d
          | _ => True end).
        { pose proof (chunk_alloc_eq deputy dbg (c_ptr c) new (c_cur c) (c_end c) psmax d Hl Hps H3 H4 H1 H2) as E. cbv zeta in E.
          unfold chunk_realloc, bind. rewrite E. destruct (room (c_cur c) (c_end c) new); cbn [ret]; [|auto].
          unfold mcopy. destruct (_ || _); cbn; auto. }
        unfold resize_room, chunk_resize. destruct (l_align new <=? l_align old); [|exact Hre].
        destruct (l_size new <=? l_size old); [cbn; auto|].
        unfold bind at 1. unfold ptr_add at 1. destruct (_ <=? _); [cbn [ret]|exact I].
        unfold bind at 1. rewrite (mload_eq deputy _ _ _ d H1). destruct (c_cur c =? ptr + l_size old); [|exact Hre].
        destruct (checked_add ptr (l_size new)) as [n|]; [|cbn; auto].
        unfold bind at 1. rewrite (mload_eq deputy _ _ _ d H2). destruct (c_end c <? n); [cbn; auto|]. cbn [negb].
        unfold bind at 1. unfold ptr_add. destruct (_ <=? _); [cbn [ret]|exact I].
        unfold bind at 1. unfold cell_cas, bind at 1. rewrite (mload_eq deputy _ _ _ d H1). rewrite Z.eqb_refl.
        unfold bind at 1, mstore. cbn [ret deputy al_set_mem al_mem].
        unfold bind, sub_usize, debug_assert. destruct (ptr <=? n), dbg; cbn; auto.
        all: destruct (_ <=? _); cbn; auto. }
      unfold bind. destruct (chunk_resize deputy dbg (c_ptr c) ptr old new d) as [[b|] d'|d'| |]; auto;
        destruct Hres as [-> Hres]; cbn [ret orelse fst snd].
      + exact Hres.
      + subst d'. exact Hslow.
      + exact Hres.
  Qed.

  (** What operation [o] asks for. *)
  Definition want (o : op) (tab : list (option ublock)) (cs : list chunk) (min : Z) : option Layout :=
    let alloc l := if root_room cs l then None else want_slow cs min l in
    match o with
    | OpAlloc l _ => if req_okb psmax l then alloc l else None
    | OpResize h old new =>
        match get h tab with
        | Some u => if fitsb old u && req_okb psmax new then
                      if resize_room cs (u_ptr u) old new then None else want_slow cs min new
                    else None
        | None => None
        end
    | OpGrowZeroed h old new =>
        match get h tab with
        | Some u => if fitsb old u && req_okb psmax new && (l_size old <=? l_size new) then alloc new else None
        | None => None
        end
    | _ => None
    end.
  Lemma want_req o tab cs min lay : want o tab cs min = Some lay ->
    exists l, req_ok psmax l /\ slow_req cs min l = Some lay.
  Proof.
    unfold want. destruct o as [l z|h off cl|h l|h old new|h old new|keep]; try discriminate.
    - destruct (req_okb psmax l) eqn:E; [|discriminate]. destruct (root_room cs l); [discriminate|].
      intros H. exists l. split; [exact E|]. apply want_slow_req. exact H.
    - destruct (get h tab); [|discriminate]. destruct (fitsb old u && req_okb psmax new) eqn:E; [|discriminate].
      apply andb_true_iff in E. destruct (resize_room _ _ _ _); [discriminate|].
      intros H. exists new. split; [apply E|]. apply want_slow_req. exact H.
    - destruct (get h tab); [|discriminate]. destruct (fitsb old u && req_okb psmax new && (l_size old <=? l_size new)) eqn:E; [|discriminate].
      apply andb_true_iff in E. destruct E as [E _]. apply andb_true_iff in E. destruct (root_room _ _); [discriminate|].
      intros H. exists new. split; [apply E|]. apply want_slow_req. exact H.
  Qed.

  Lemma call_asks {B} (m : M (AW (W := dw)) B) f tab aw x : asksA m aw x -> d_asked (snd aw) = None ->
    match call m f (mkCst tab aw) with ORet _ c | OPanic c => d_asked (snd (c_w c)) = x | _ => True end.
  Proof.
    intros H E. unfold call, asksA in *. cbn [c_w c_tab]. destruct (m aw); auto; cbn [c_w]; rewrite H, E; destruct x; reflexivity.
  Qed.
  Lemma zeroed_asks cs ar d l : chain (d_mem d) cs -> chunks_fit cs -> ar_root ar = head_ptr cs -> req_ok psmax l ->
    asksA (al_allocate_zeroed (blink deputy dbg) l) (ar, d) (if root_room cs l then None else want_slow cs (ar_min ar) l).
  Proof.
    intros Hc Hf Hr Hl. unfold al_allocate_zeroed. apply asksA_bind; [apply allocate_asks; assumption|].
    intros [b|]; [|apply muteA_ret]. apply muteA_bind; [apply muteA_fill|]. intros _. apply muteA_ret.
  Qed.

  Lemma step_asks o tab cs ar d : is_reset o = false -> d_asked d = None -> chain (d_mem d) cs -> chunks_fit cs ->
    ar_root ar = head_ptr cs ->
    match step psmax (blink deputy dbg) (fun _ => blink_reset deputy) o (mkCst tab (ar, d)) with
    | ORet _ c | OPanic c => d_asked (snd (c_w c)) = want o tab cs (ar_min ar)
    | _ => True
    end.
  Proof.
    intros Hn Ha Hc Hf Hr. unfold step, step_at, want. cbn [c_tab].
    assert (Hskip : forall x, @skip (AW (W := dw)) (mkCst tab (ar, d)) = x -> match x with ORet _ c | OPanic c => d_asked (snd (c_w c)) = None | _ => True end).
    { intros x <-. cbn. exact Ha. }
    destruct o as [l z|h off cl|h l|h old new|h old new|keep]; [| | | | |discriminate].
    - destruct (req_okb psmax l) eqn:E; [|apply (Hskip _ eq_refl)]. apply call_asks; [|exact Ha].
      destruct z; [apply zeroed_asks|apply allocate_asks]; assumption.
    - destruct (get h tab) as [u|]; [|apply (Hskip _ eq_refl)]. destruct (_ && _); [|apply (Hskip _ eq_refl)]. cbn. exact Ha.
    - destruct (get h tab) as [u|]; [|apply (Hskip _ eq_refl)]. destruct (fitsb l u); [|apply (Hskip _ eq_refl)].
      unfold bind. pose proof (call_asks (al_deallocate (blink deputy dbg) (u_ptr u) l) (fun _ => set_nth h None) tab (ar, d) None
        (mute_dealloc (u_ptr u) (l_size l) (ar, d)) Ha) as H.
      destruct (call _ _ _); auto.
    - destruct (get h tab) as [u|]; [|apply (Hskip _ eq_refl)]. destruct (fitsb old u && req_okb psmax new) eqn:E; [|apply (Hskip _ eq_refl)].
      apply andb_true_iff in E. apply call_asks; [|exact Ha].
      destruct (l_size old <=? l_size new); apply resize_asks; try assumption; apply E.
    - destruct (get h tab) as [u|]; [|apply (Hskip _ eq_refl)].
      destruct (fitsb old u && req_okb psmax new && (l_size old <=? l_size new)) eqn:E; [|apply (Hskip _ eq_refl)].
      apply andb_true_iff in E. destruct E as [E _]. apply andb_true_iff in E. apply call_asks; [|exact Ha].
      unfold al_grow_zeroed. apply asksA_bind; [apply zeroed_asks; try assumption; apply E|].
      intros [b|]; [|apply muteA_ret]. apply muteA_bind; [apply muteA_copy|]. intros _.
      apply muteA_bind; [apply mute_dealloc|]. intros _. apply muteA_ret.
  Qed.
End Asks.
