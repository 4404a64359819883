(** Lemmas behind the theorems of Properties_Alloc.v that are not in
    SetupFacts.v or SetupProps.v: refinement to independent buffers, layouts
    sent to the bottom allocator, and the counterexamples. *)
From Verif Require Import Base BaseFacts Alloc AllocFacts Arena ArenaFacts ArenaInv ArenaOps
  BlinkAlloc BlinkFacts History HistoryFacts Setup SetupFacts SetupOps SetupOps2 SetupOps3 SetupProps
  Concrete Steady Tower.

Lemma refinement su ops : setup_ok su ->
  exists rs st, do_run su ops (start su) = ORet rs st /\ length rs = length ops /\
    agrees (memory st) (c_tab st) (srun ops (map (option_map b_len) rs) []).
Proof.
  intros Hok. destruct (run_total su Hok ops) as (rs & st & E & L & _ & Ha). eauto.
Qed.

Lemma no_failure su ops : setup_ok su -> exists rs st, do_run su ops (start su) = ORet rs st.
Proof.
  intros Hok. destruct (run_total su Hok ops) as (rs & st & E & _). eauto.
Qed.

Lemma legal_alloc smax tr l r : legal smax tr -> In (EvAlloc l r) tr -> req_ok smax l.
Proof.
  induction tr as [|e tr IH]; intros H Hin; [destruct Hin|].
  destruct H as [H1 H2]. destruct Hin as [->|Hin]; [exact H2|auto].
Qed.

Lemma legal_dealloc smax tr p l : legal smax tr -> In (EvDealloc p l) tr -> req_ok smax l.
Proof.
  induction tr as [|e tr IH]; intros H Hin; [destruct Hin|].
  destruct H as [H1 H2]. destruct Hin as [->|Hin]; [apply H2|auto].
Qed.

Lemma layouts_valid su ops st : setup_ok su -> su_bmax su = ISIZE_MAX -> reached su ops st ->
  (forall l r, In (EvAlloc l r) (calls st) -> layout_ok l) /\
  (forall p l, In (EvDealloc p l) (calls st) -> layout_ok l).
Proof.
  intros Hok Hb Hr. pose proof (reached_legal su Hok ops st Hr) as H. rewrite Hb in H. split.
  - intros l r Hin. apply req_ok_layout. apply (legal_alloc _ _ _ _ H Hin).
  - intros p l Hin. apply req_ok_layout. apply (legal_dealloc _ _ _ _ H Hin).
Qed.

(** ** Counterexamples *)

Ltac computed_step su ops o :=
  let r := fresh "r" in let E := fresh "E" in let Er := fresh "Er" in
  destruct (final_step su ops o (demo_ok _)) as (r & E & Er);
  vm_compute in Er.

Definition shrink_hist : list op := [OpAlloc (L 64 1) false].

Lemma shrink_moves : exists su ops st h u old new b st',
  setup_ok su /\ reached su ops st /\ get h (c_tab st) = Some u /\ fits old u /\
  req_ok (su_smax su) new /\ l_size new <= l_size old /\ u_ptr u mod l_align new = 0 /\
  do_step su (OpResize h old new) st = ORet (Some b) st' /\ b_ptr b <> u_ptr u.
Proof.
  exists (demo megabytes), shrink_hist, (final (demo megabytes) shrink_hist), 0%nat.
  exists (mkU 1048608 64 (L 64 1)), (L 64 1), (L 8 8), (mkBlock 1048672 8).
  exists (final (demo megabytes) (shrink_hist ++ [OpResize 0 (L 64 1) (L 8 8)])).
  split; [apply demo_ok|]. split; [apply final_reached, demo_ok|].
  split; [vm_compute; reflexivity|]. split; [unfold fits; cbn; lia|].
  split; [vm_compute; reflexivity|]. split; [cbn; lia|]. split; [vm_compute; reflexivity|].
  split; [|discriminate].
  computed_step (demo megabytes) shrink_hist (OpResize 0 (L 64 1) (L 8 8)).
  injection Er as Er. rewrite Er. exact E.
Qed.

(** The chunk is full and the bottom allocator refuses another one. *)
Definition full_hist : list op := [OpAlloc (L 480 1) false].

Lemma shrink_fails : exists su ops st h u old new st',
  setup_ok su /\ reached su ops st /\ get h (c_tab st) = Some u /\ fits old u /\
  req_ok (su_smax su) new /\ l_size new <= l_size old /\ u_ptr u mod l_align new = 0 /\
  do_step su (OpResize h old new) st = ORet None st'.
Proof.
  exists (demo stingy), full_hist, (final (demo stingy) full_hist), 0%nat.
  exists (mkU 1048608 480 (L 480 1)), (L 480 1), (L 8 8).
  exists (final (demo stingy) (full_hist ++ [OpResize 0 (L 480 1) (L 8 8)])).
  split; [apply demo_ok|]. split; [apply final_reached, demo_ok|].
  split; [vm_compute; reflexivity|]. split; [unfold fits; cbn; lia|].
  split; [vm_compute; reflexivity|]. split; [cbn; lia|]. split; [vm_compute; reflexivity|].
  computed_step (demo stingy) full_hist (OpResize 0 (L 480 1) (L 8 8)).
  injection Er as Er. rewrite Er. exact E.
Qed.

(** A block at the tip is shrunk from 400 to 10 bytes, yet the next 100 bytes
    do not fit the chunk of 480: a second chunk is requested. *)
Definition tip_hist : list op := [OpAlloc (L 400 1) false; OpResize 0 (L 400 1) (L 10 1)].

Lemma shrink_frees_nothing : exists su ops st u b st',
  setup_ok su /\ ops = [OpAlloc (L 400 1) false; OpResize 0 (L 400 1) (L 10 1)] /\
  reached su ops st /\ c_tab st = [Some u] /\ u_layout u = L 10 1 /\
  do_step su (OpAlloc (L 100 1) false) st = ORet (Some b) st' /\
  exists k1 k2, held st = [k1] /\ inside u k1 /\ 10 + 100 <= u_len k1 - HEADER /\ held st' = [k2; k1].
Proof.
  exists (demo megabytes), tip_hist, (final (demo megabytes) tip_hist), (mkU 1048608 400 (L 10 1)).
  exists (mkBlock 2097184 100), (final (demo megabytes) (tip_hist ++ [OpAlloc (L 100 1) false])).
  split; [apply demo_ok|]. split; [reflexivity|]. split; [apply final_reached, demo_ok|].
  split; [vm_compute; reflexivity|]. split; [reflexivity|]. split.
  { computed_step (demo megabytes) tip_hist (OpAlloc (L 100 1) false).
    injection Er as Er. rewrite Er. exact E. }
  exists (mkU 1048576 512 (L 512 8)), (mkU 2097152 512 (L 512 8)).
  split; [vm_compute; reflexivity|]. split; [unfold inside, HEADER; cbn; lia|].
  split; [unfold HEADER; cbn; lia|]. vm_compute; reflexivity.
Qed.

(** After a chunk of 8192 bytes is exhausted, one of 512 is requested. *)
Definition grow_hist : list op := [OpAlloc (L 5000 8) false; OpAlloc (L 3100 8) false].

Lemma next_chunk_smaller : exists su ops st k st',
  setup_ok su /\ reached su ops st /\ held st = [k] /\
  (exists b, do_step su (OpAlloc (L 100 8) false) st = ORet (Some b) st') /\
  exists k', held st' = [k'; k] /\ u_len k' < u_len k.
Proof.
  exists (demo megabytes), grow_hist, (final (demo megabytes) grow_hist), (mkU 1048576 8192 (L 8192 8)).
  exists (final (demo megabytes) (grow_hist ++ [OpAlloc (L 100 8) false])).
  split; [apply demo_ok|]. split; [apply final_reached, demo_ok|]. split; [vm_compute; reflexivity|].
  split.
  { computed_step (demo megabytes) grow_hist (OpAlloc (L 100 8) false).
    injection Er as Er. rewrite <- Er in E. eauto. }
  exists (mkU 2097152 512 (L 512 8)). split; [vm_compute; reflexivity|]. cbn; lia.
Qed.

(** A default allocator in a release build, over a bottom allocator that takes
    any layout and refuses everything. *)
Definition plain (min smax bmax : Z) : setup :=
  mkSetup false (2 ^ 47) smax bmax min (checked (2 ^ 47) nothing).

Lemma plain_ok min : 0 <= min <= USIZE_MAX -> setup_ok (plain min ISIZE_MAX USIZE_MAX).
Proof.
  intros H. unfold setup_ok, plain; cbn [su_dbg su_amax su_smax su_bmax su_min su_strat].
  split; [apply checked_honest|]. unfold USIZE_MAX, ISIZE_MAX in *. repeat split; try lia.
Qed.

(** A valid layout of [isize::MAX] bytes makes a default allocator request an
    invalid one. *)
Definition huge : Layout := mkLayout ISIZE_MAX 1.

Lemma invalid_layout : exists su st l r,
  setup_ok su /\ su_min su = CHUNK_START_SIZE /\ layout_ok huge /\
  reached su [OpAlloc huge false] st /\ In (EvAlloc l r) (calls st) /\ ~ layout_ok l.
Proof.
  exists (plain CHUNK_START_SIZE ISIZE_MAX USIZE_MAX).
  exists (final (plain CHUNK_START_SIZE ISIZE_MAX USIZE_MAX) [OpAlloc huge false]).
  exists (mkLayout (2 ^ 63 + 2 ^ 14) 8), None.
  assert (Hok : setup_ok (plain CHUNK_START_SIZE ISIZE_MAX USIZE_MAX))
    by (apply plain_ok; unfold CHUNK_START_SIZE, USIZE_MAX; lia).
  split; [exact Hok|]. split; [reflexivity|]. split; [reflexivity|].
  split; [apply final_reached; exact Hok|]. split; [vm_compute; left; reflexivity|].
  vm_compute. discriminate.
Qed.

(** Over a bottom allocator that insists on valid layouts this is undefined
    behaviour. *)
Lemma invalid_layout_ub :
  do_run (plain CHUNK_START_SIZE ISIZE_MAX ISIZE_MAX) [OpAlloc huge false]
         (start (plain CHUNK_START_SIZE ISIZE_MAX ISIZE_MAX)) = OUB.
Proof. vm_compute. reflexivity. Qed.

Definition panics {W A} (o : outcome W A) : bool := match o with OPanic _ => true | _ => false end.
Lemma panics_spec {W A} (o : outcome W A) : panics o = true -> exists w, o = OPanic w.
Proof. destruct o; try discriminate. eauto. Qed.

(** A debug build with chunk size 0 panics on a zero-sized allocation. *)
Definition zero_chunk (dbg : bool) : setup :=
  mkSetup dbg (2 ^ 47) (2 ^ 40) USIZE_MAX 0 (checked (2 ^ 47) megabytes).

Lemma zero_chunk_panics : exists st,
  do_run (zero_chunk true) [OpAlloc (L 0 1) false] (start (zero_chunk true)) = OPanic st.
Proof. apply panics_spec. vm_compute. reflexivity. Qed.

Lemma zero_chunk_release : setup_ok (zero_chunk false).
Proof.
  unfold setup_ok, zero_chunk; cbn [su_dbg su_amax su_smax su_bmax su_min su_strat].
  split; [apply checked_honest|]. unfold USIZE_MAX in *. repeat split; try lia.
Qed.

(** A debug build with an extreme chunk size panics on any allocation. *)
Definition extreme_chunk : setup :=
  mkSetup true (2 ^ 47) (2 ^ 40) USIZE_MAX (USIZE_MAX - 100) (checked (2 ^ 47) nothing).

Lemma extreme_chunk_panics : exists st,
  do_run extreme_chunk [OpAlloc (L 1 1) false] (start extreme_chunk) = OPanic st.
Proof. apply panics_spec. vm_compute. reflexivity. Qed.

(** ** Chunk sizes in plain inequalities *)

Lemma rounded_ge n s : rounded n s -> n <= s.
Proof. intros [H _]. exact H. Qed.

Lemma chunk_growth su ops st o l r st' lay ans :
  setup_ok su -> reached su ops st -> requests su st o l -> do_step su o st = ORet r st' ->
  calls st' = EvAlloc lay ans :: calls st ->
  HEADER + l_size l <= l_size lay /\ HEADER + su_min su <= l_size lay /\
  (8 < l_align l -> HEADER + l_size l + l_align l <= l_size lay) /\
  forall k older, held st = k :: older ->
    HEADER + capacity older + Z.max (l_size l) 64 <= l_size lay /\
    HEADER + su_min su + Z.max (l_size l) 64 <= l_size lay.
Proof.
  intros Hok Hr Hq E Hc.
  destruct (reached_request su Hok ops st o l r st' Hr Hq E) as [[_ H]|[H|(_ & H & _)]].
  1,3: exfalso; rewrite H in Hc; apply (f_equal (@length _)) in Hc; cbn in Hc; lia.
  destruct H as (lay' & ans' & H1 & _ & _ & _ & H2). rewrite H1 in Hc. injection Hc as <- _.
  apply rounded_ge in H2. unfold wanted, HEADER in *.
  assert (Hal : 1 <= l_align l /\ 0 <= l_size l).
  { assert (Hro : req_ok (su_smax su) l) by (destruct o; cbn in Hq; tauto).
    unfold req_ok, req_okb in Hro. apply andb_true_iff in Hro. destruct Hro as [Hro _].
    apply andb_true_iff in Hro. destruct Hro as [Hp Hs].
    unfold is_pow2 in Hp. lia. }
  destruct Hok as (_ & _ & _ & _ & _ & Hm & _).
  destruct (8 <? l_align l) eqn:E8; (destruct (held st) as [|k' older'] eqn:Eh);
    (split; [lia|split; [lia|split; [lia|]]]); intros k0 older X; try discriminate X.
  all: injection X as _ <-; split; lia.
Qed.

(** ** Histories used in the examples *)
Definition h1 : list op :=
  [OpAlloc (L 100 16) false; OpWrite 0 0 [Byte 7; Byte 8]; OpAlloc (L 10 1) true;
   OpAlloc (L 5000 64) false; OpResize 0 (L 100 16) (L 200 32); OpDealloc 1 (L 10 1)].
Definition h2 : list op :=
  h1 ++ [OpReset true; OpAlloc (L 64 1) true; OpAlloc (L 3000 8) false; OpWrite 4 2999 [Byte 3]].
Definition hs : setup := demo generous.

(** ** Steady usage *)
Lemma cycles_repeat n : cycles n = concat (repeat (work ++ [OpReset true]) n).
Proof.
  induction n as [|n IH]; [reflexivity|]. cbn [cycles]. rewrite IH.
  change (S n) with (1 + n)%nat. rewrite Nat.add_comm, repeat_app, concat_app. reflexivity.
Qed.

Lemma steady_needs_chunks : exists su work, setup_ok su /\ existsb is_reset work = false /\
  forall n, exists st rs st',
    reached su (concat (repeat (work ++ [OpReset true]) n)) st /\
    do_run su work st = ORet rs st' /\
    (2 <= length (held st'))%nat /\ calls st' <> calls st.
Proof.
  exists steady, work. split; [exact Hok|]. split; [reflexivity|]. intros n.
  rewrite <- cycles_repeat.
  destruct (never_settles n) as (_ & H2 & e & tr & H3).
  destruct (final_run steady (cycles n) work Hok) as (rs & E & _).
  exists (final steady (cycles n)), rs, (final steady (cycles n ++ work)).
  split; [apply final_reached, Hok|]. split; [exact E|]. split; [exact H2|].
  rewrite H3. intros X. apply (f_equal (@length _)) in X. cbn in X. rewrite app_length in X. lia.
Qed.

Lemma write_then_any su ops st h off cs o :
  setup_ok su -> reached su ops st ->
  exists r st1, do_step su (OpWrite h off cs) st = ORet r st1 /\
  exists r' st2, do_step su o st1 = ORet r' st2.
Proof.
  intros Hok Hr. destruct (reached_step_total su Hok ops st (OpWrite h off cs) Hr) as (r & st1 & E & Hr1).
  exists r, st1. split; [exact E|].
  destruct (reached_step_total su Hok _ st1 o Hr1) as (r' & st2 & E2 & _). eauto.
Qed.

Lemma chunk_size su ops st o l r st' :
  setup_ok su -> reached su ops st -> requests su st o l -> do_step su o st = ORet r st' ->
  calls st' = calls st \/
  exists lay ans, calls st' = EvAlloc lay ans :: calls st /\ l_align lay = 8 /\
    rounded (wanted (su_min su) (held st) l) (l_size lay).
Proof.
  intros Hok Hr Hq E.
  destruct (reached_request su Hok ops st o l r st' Hr Hq E) as [[_ H]|[H|(_ & H & _)]]; auto.
  right. destruct H as (lay & ans & H1 & _ & _ & H2 & H3). exists lay, ans. auto.
Qed.

Lemma fails_only_if_refused su ops st o l st' :
  setup_ok su -> reached su ops st -> requests su st o l -> do_step su o st = ORet None st' ->
  (exists lay, calls st' = EvAlloc lay None :: calls st /\ st_alloc (su_strat su) (calls st) lay = None) \/
  USIZE_MAX < wanted (su_min su) (held st) l + 7.
Proof.
  intros Hok Hr Hq E.
  destruct (reached_request su Hok ops st o l _ st' Hr Hq E) as [[H _]|[H|(_ & _ & H)]].
  - congruence.
  - destruct H as (lay & ans & H1 & H2 & [H3 _] & _). specialize (H3 eq_refl). subst ans.
    left. exists lay. rewrite H3 in H1. auto.
  - right. exact H.
Qed.

Lemma blink_conforms W amax smax smax' (A : Allocator W) own dbg min :
  contract amax smax' A own -> 0 <= amax <= USIZE_MAX ->
  smax <= USIZE_MAX -> smax' <= USIZE_MAX ->
  (dbg = false /\ smax' = USIZE_MAX) \/ (1 <= min /\ Z.max amax min + smax + 2 ^ 15 <= smax') ->
  contract amax smax (blink A dbg) (blink_own amax A own (fun _ _ => True) [] min).
Proof.
  intros Hct Ha H1 H2 Hc. apply (blink_contract amax smax smax' A own Hct Ha); [apply jinv_true|].
  split; [exact H1|]. split; [exact H2|exact Hc].
Qed.

Lemma tower_histories dbg bmax S amax l ls ops :
  0 <= amax <= USIZE_MAX -> amax <= bmax -> honest amax S -> tower_ok dbg bmax amax (l :: ls) ->
  exists rs st,
    run (lv_smax l) (tower dbg bmax S (l :: ls)) (tower_reset dbg bmax S (l :: ls)) ops
        (mkCst [] (tower_start (l :: ls))) = ORet rs st /\
    length rs = length ops /\ Forall (u_ok amax) (live (c_tab st)) /\ pairwise disjoint_u (live (c_tab st)) /\
    agrees (al_mem (tower dbg bmax S (l :: ls)) (c_w st)) (c_tab st) (srun ops (map (option_map b_len) rs) []).
Proof. intros H1 H2 H3. apply tower_run; assumption. Qed.

(** Three levels of default blink allocators. *)
Definition c21_levels : list level := [mkLevel 256 (2 ^ 40); mkLevel 256 (2 ^ 50); mkLevel 256 (2 ^ 60)].
Definition c09_mid : list op := [OpWrite 3 0 [Byte 1]; OpDealloc 0 (L 200 32)].
Definition c20_hist : list op := [OpAlloc (L 50 1) false; OpWrite 0 0 [Byte 9; Byte 9]; OpReset true].

(** ** Raising the alignment (C07) *)

(** A resize to a larger alignment is an allocation followed by a copy. *)
Lemma raise_is_alloc {W} (A : Allocator W) dbg p old new aw :
  l_align old < l_align new ->
  blink_resize A dbg p old new aw =
  match blink_allocate A dbg new aw with
  | ORet (Some b) aw1 =>
      match mcopy A p (b_ptr b) (Z.min (l_size new) (l_size old)) (snd aw1) with
      | ORet _ w2 => ORet (Some b) (fst aw1, w2)
      | OPanic w2 => OPanic (fst aw, w2)
      | OAbort => OAbort
      | OUB => OUB
      end
  | x => x
  end.
Proof.
  intros Ha. destruct aw as [ar w].
  unfold blink_resize, blink_allocate, resize_fast, alloc_fast, arena_alloc_slow, arena_resize_slow, with_aw, bind.
  cbn [fst snd]. unfold chunk_resize. rewrite (proj2 (Z.leb_gt _ _) Ha).
  destruct (ar_root ar) as [r|] eqn:Er.
  - unfold chunk_realloc, bind.
    destruct (chunk_alloc A dbg r new w) as [[b|] w1| | |] eqn:E1; cbn [fst snd ret]; try reflexivity.
    + unfold mcopy. destruct ((_ =? 0) || _ || _); reflexivity.
    + rewrite Er. unfold resize_slow, bind.
      destruct (alloc_slow A dbg (Some r) (ar_min ar) new w1) as [[[b c]|] w2| | |]; cbn [fst snd ret]; try reflexivity.
      unfold mcopy. destruct ((_ =? 0) || _ || _); reflexivity.
  - cbn [fst snd ret]. rewrite Er. unfold resize_slow, bind.
    destruct (alloc_slow A dbg None (ar_min ar) new w) as [[[b c]|] w2| | |]; cbn [fst snd ret]; try reflexivity.
    unfold mcopy. destruct ((_ =? 0) || _ || _); reflexivity.
Qed.

Lemma raising_alignment su ops st h u old new :
  setup_ok su -> reached su ops st -> get h (c_tab st) = Some u -> fits old u -> req_ok (su_smax su) new ->
  l_align old < l_align new ->
  exists r st1 st2, do_step su (OpAlloc new false) st = ORet r st1 /\ do_step su (OpResize h old new) st = ORet r st2 /\
    calls st2 = calls st1 /\ fst (c_w st2) = fst (c_w st1) /\
    forall b, r = Some b -> 0 < l_size old -> 0 < l_size new -> b_ptr b <> u_ptr u.
Proof.
  intros Hok Hr G Hf Hn Ha.
  destruct (reached_step_total su Hok ops st (OpAlloc new false) Hr) as (r & st1 & E1 & Hr1).
  destruct (reached_step_total su Hok ops st (OpResize h old new) Hr) as (r2 & st2 & E2 & _).
  exists r, st1, st2. split; [exact E1|]. pose proof E2 as E2'.
  rewrite step_eq in E1, E2. unfold step_at in E1, E2. rewrite G in E2.
  unfold req_ok in Hn. rewrite Hn in E1, E2. rewrite (proj2 (fitsb_spec _ _) Hf) in E2. cbn [andb] in E2.
  assert (Eb : (if l_size old <=? l_size new then al_grow (ba su) (u_ptr u) old new else al_shrink (ba su) (u_ptr u) old new)
               = blink_resize (bot su) (su_dbg su) (u_ptr u) old new) by (destruct (_ <=? _); reflexivity).
  rewrite Eb in E2. clear Eb. change (al_allocate (ba su) new) with (blink_allocate (bot su) (su_dbg su) new) in E1.
  unfold call in E1, E2. rewrite (raise_is_alloc _ _ _ _ _ _ Ha) in E2.
  destruct (blink_allocate (bot su) (su_dbg su) new (c_w st)) as [r0 aw1| | |] eqn:E0; try discriminate.
  inversion E1; subst r0 st1. clear E1.
  destruct r as [b|].
  - unfold mcopy in E2. destruct ((_ =? 0) || _ || _); [|discriminate]. inversion E2; subst r2 st2. clear E2.
    split; [exact E2'|]. split; [reflexivity|]. split; [reflexivity|].
    intros b0 Eb0 Po Pn. inversion Eb0; subst b0. intros Eq.
    pose proof (reached_disjoint su Hok _ _ h (length (c_tab st)) u (mkU (b_ptr b) (b_len b) new) Hr1) as D.
    cbn [c_tab on_ok] in D. rewrite get_mid in D.
    destruct (get_split _ _ _ G) as (t1 & t2 & Et & Lt).
    assert (Nh : h <> length (c_tab st)) by (rewrite Et, app_length; cbn; lia).
    assert (Gh : get h (c_tab st ++ [Some (mkU (b_ptr b) (b_len b) new)]) = Some u).
    { rewrite Et, <- Lt, <- app_assoc. cbn [app]. apply get_mid. }
    specialize (D Nh Gh eq_refl).
    pose proof (reached_block su Hok _ _ (length (c_tab st)) (mkU (b_ptr b) (b_len b) new) Hr1) as B.
    cbn [c_tab on_ok] in B. rewrite get_mid in B. destruct (B eq_refl) as (_ & _ & Bl & _).
    cbn [u_ptr u_len u_layout] in *. destruct Hf as [_ Hf].
    apply (D (u_ptr u)); unfold in_u; cbn [u_ptr u_len]; lia.
  - inversion E2; subst r2 st2. split; [exact E2'|]. split; [reflexivity|]. split; [reflexivity|]. intros b Eb. discriminate.
Qed.

(** ** Shrinking at the tip (C10) *)

(** A shrink that keeps the alignment returns the block as it was, and changes nothing. *)
Lemma shrink_keeps su ops st h u old new :
  setup_ok su -> reached su ops st -> get h (c_tab st) = Some u -> fits old u -> req_ok (su_smax su) new ->
  l_align new <= l_align old -> l_size new <= l_size old ->
  do_step su (OpResize h old new) st =
    ORet (Some (mkBlock (u_ptr u) (l_size old)))
         (mkCst (set_nth h (Some (mkU (u_ptr u) (l_size old) new)) (c_tab st)) (c_w st)).
Proof.
  intros Hok Hr G Hf Hn Ha Hs.
  assert (Hroot : ar_root (fst (c_w st)) <> None).
  { destruct (reached_srep su Hok ops st Hr) as (cs & (R & Hh & _)).
    destruct (reached_block su Hok ops st h u Hr G) as (_ & _ & _ & _ & k & Hk & _). rewrite <- Hh in Hk.
    rewrite (ar_head _ _ _ _ _ _ _ _ R). destruct cs; [contradiction|discriminate]. }
  rewrite step_eq. unfold step_at. rewrite G. unfold req_ok in Hn. rewrite Hn, (proj2 (fitsb_spec _ _) Hf). cbn [andb].
  assert (Eb : (if l_size old <=? l_size new then al_grow (ba su) (u_ptr u) old new else al_shrink (ba su) (u_ptr u) old new)
               = blink_resize (bot su) (su_dbg su) (u_ptr u) old new) by (destruct (_ <=? _); reflexivity).
  rewrite Eb. unfold call, blink_resize, resize_fast, with_aw, bind.
  destruct (ar_root (fst (c_w st))) as [r|]; [|contradiction]. unfold chunk_resize.
  rewrite (proj2 (Z.leb_le _ _) Ha), (proj2 (Z.leb_le _ _) Hs). cbn [ret fst snd on_ok b_ptr b_len].
  destruct (c_w st); reflexivity.
Qed.

(** What is allocated later does not depend on the table of blocks. *)
Lemma allocs_alike su reqs : forall st st1 rs st',
  c_w st1 = c_w st -> do_run su (map (fun x => OpAlloc (fst x) (snd x)) reqs) st = ORet rs st' ->
  exists st1', do_run su (map (fun x => OpAlloc (fst x) (snd x)) reqs) st1 = ORet rs st1' /\ c_w st1' = c_w st'.
Proof.
  unfold do_run. induction reqs as [|[l z] reqs IH]; intros st st1 rs st' Hw E.
  - cbn in *. inversion E; subst. eauto.
  - cbn [map fst snd run] in *. unfold bind in *.
    destruct (step (su_smax su) (ba su) (do_reset su) (OpAlloc l z) st) as [r s2| | |] eqn:E2; try discriminate.
    assert (H2 : exists s2', step (su_smax su) (ba su) (do_reset su) (OpAlloc l z) st1 = ORet r s2' /\ c_w s2' = c_w s2).
    { unfold step, step_at in *. destruct (req_okb (su_smax su) l).
      - unfold call in *. rewrite Hw. destruct ((if z then al_allocate_zeroed (ba su) l else al_allocate (ba su) l) (c_w st)); try discriminate.
        inversion E2; subst. eauto.
      - unfold skip in *. cbn in *. inversion E2; subst. eauto. }
    destruct H2 as (s2' & E2' & W2). rewrite E2'.
    destruct (run (su_smax su) (ba su) (do_reset su) (map _ reqs) s2) as [rs' s3| | |] eqn:E3; try discriminate.
    destruct (IH s2 s2' rs' s3 W2 E3) as (s3' & E3' & W3). rewrite E3'. cbn [ret] in *. inversion E; subst. eauto.
Qed.

Lemma shrink_frees_never su ops st h u old new reqs rs st' :
  setup_ok su -> reached su ops st -> get h (c_tab st) = Some u -> fits old u -> req_ok (su_smax su) new ->
  l_align new <= l_align old -> l_size new <= l_size old ->
  do_run su (map (fun x => OpAlloc (fst x) (snd x)) reqs) st = ORet rs st' ->
  exists st1 st1', do_step su (OpResize h old new) st = ORet (Some (mkBlock (u_ptr u) (l_size old))) st1 /\
    c_w st1 = c_w st /\
    do_run su (map (fun x => OpAlloc (fst x) (snd x)) reqs) st1 = ORet rs st1' /\ c_w st1' = c_w st'.
Proof.
  intros Hok Hr G Hf Hn Ha Hs E. pose proof (shrink_keeps su ops st h u old new Hok Hr G Hf Hn Ha Hs) as E1.
  destruct (allocs_alike su reqs st (mkCst (set_nth h (Some (mkU (u_ptr u) (l_size old) new)) (c_tab st)) (c_w st)) rs st' eq_refl E)
    as (st1' & E2 & W2).
  eexists _, st1'. split; [exact E1|]. split; [reflexivity|]. split; [exact E2|exact W2].
Qed.
