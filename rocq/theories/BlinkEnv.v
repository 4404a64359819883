(** Allocators under a [Blink], and the programs run on it. *)
From Coq Require Import Permutation.
From Verif Require Import Base BaseFacts Alloc AllocFacts Arena ArenaFacts ArenaInv ArenaOps BlinkAlloc BlinkFacts
  History HistoryFacts Setup SetupFacts Blink BlinkInv BlinkReset BlinkOps BlinkIter BlinkMain.

(** ** Allocators that return exactly what was asked for *)
Section Exact.
  Context {W : Type} (A : Allocator W) (dbg : bool).

  Definition yields {X B} (m : M X B) (P : B -> Prop) : Prop := forall w b w', m w = ORet b w' -> P b.
  Lemma yields_bind {X B C} (m : M X B) (f : B -> M X C) R P : yields m R -> (forall b, R b -> yields (f b) P) -> yields (bind m f) P.
  Proof.
    intros Hm H w c w' E. unfold bind in E. destruct (m w) as [b w1| | |] eqn:Em; try discriminate.
    apply (H b (Hm _ _ _ Em) _ _ _ E).
  Qed.
  Lemma yields_step {X B C} (m : M X B) (f : B -> M X C) P : (forall b, yields (f b) P) -> yields (bind m f) P.
  Proof. intros H. apply (yields_bind m f (fun _ => True)); [intros ? ? ? _; exact I|auto]. Qed.
  Lemma yields_ret {X B} (b : B) (P : B -> Prop) : P b -> yields (ret b : M X B) P.
  Proof. intros H w b' w' E. inversion E; subst. exact H. Qed.
  Lemma yields_ub {X B} (P : B -> Prop) : yields (ub : M X B) P.
  Proof. intros w b w' E. discriminate. Qed.
  Lemma yields_ptr_add {X} p n : yields (ptr_add p n : M X Z) (fun r => r = p + n).
  Proof. intros w b w' E. unfold ptr_add, ret, ub in E. destruct (_ <=? _); inversion E; reflexivity. Qed.
  Lemma yields_sub {X} a b : yields (sub_usize dbg a b : M X Z) (fun r => 0 <= a - b <= USIZE_MAX -> r = a - b).
  Proof.
    intros w r w' E. unfold sub_usize, ret, panic, wrap in E. destruct (_ <=? _); [inversion E; auto|].
    destruct dbg; inversion E; subst. intros H. apply Z.mod_small. unfold USIZE_MAX in H. lia.
  Qed.
  Lemma yields_with {B} (f : Arena -> M W (B * Arena)) P : (forall ar, yields (f ar) (fun x => P (fst x))) -> yields (with_aw f) P.
  Proof.
    intros H [ar w] b w' E. unfold with_aw in E. cbn [fst snd] in E. destruct (f ar w) as [[b1 ar1] w1| | |] eqn:Ef; try discriminate.
    inversion E; subst. exact (H _ _ _ _ Ef).
  Qed.

  Definition len_is (n : Z) (r : option block) : Prop := match r with Some b => b_len b = n | None => True end.

  Lemma chunk_alloc_len c l : 0 <= l_size l <= USIZE_MAX -> yields (chunk_alloc A dbg c l) (len_is (l_size l)).
  Proof.
    intros Hl. unfold chunk_alloc. apply yields_step. intros cur. apply yields_step. intros e.
    apply (yields_bind _ _ (fun r => match r with Some (a, n) => n = a + l_size l | None => True end)).
    - unfold alloc_attempt. apply yields_step. intros sum. destruct (checked_add cur sum) as [u|]; [|apply yields_ret; exact I].
      apply yields_step. intros u'. apply yields_step. intros _. apply yields_step. intros d. apply yields_step. intros _.
      apply yields_step. intros nx. destruct (e <? nx); [apply yields_ret; exact I|].
      apply yields_step. intros a. apply (yields_bind _ _ _ _ (yields_ptr_add a (l_size l))). intros n ->. apply yields_ret. reflexivity.
    - intros [[a n]|] H; [|apply yields_ret; exact I]. subst n. apply yields_step. intros _.
      apply (yields_bind _ _ _ _ (yields_sub (a + l_size l) a)). intros len Hlen.
      apply yields_step. intros _. apply yields_step. intros _. apply yields_ret. cbn [len_is b_len]. rewrite Hlen; lia.
  Qed.

  Lemma alloc_slow_len root min l : 0 <= l_size l <= USIZE_MAX ->
    yields (alloc_slow A dbg root min l) (fun r => len_is (l_size l) (option_map fst r)).
  Proof.
    intros Hl. unfold alloc_slow. apply yields_step. intros cum. destruct (next_chunk_size cum min l); [|apply yields_ret; exact I].
    apply yields_step. intros _. apply yields_step. intros [c|]; [|apply yields_ret; exact I].
    apply (yields_bind _ _ _ _ (chunk_alloc_len c l Hl)). intros [b|] H; [apply yields_ret; exact H|apply yields_ub].
  Qed.

  Lemma blink_allocate_len l : 0 <= l_size l <= USIZE_MAX -> yields (blink_allocate A dbg l) (len_is (l_size l)).
  Proof.
    intros Hl. unfold blink_allocate. apply (yields_bind _ _ (len_is (l_size l))).
    - unfold alloc_fast. apply yields_with. intros ar. destruct (ar_root ar) as [r|]; [|apply yields_ret; exact I].
      apply (yields_bind _ _ _ _ (chunk_alloc_len r l Hl)). intros b H. apply yields_ret. exact H.
    - intros [b|] H; [apply yields_ret; exact H|]. unfold arena_alloc_slow. apply yields_with. intros ar.
      apply (yields_bind _ _ _ _ (alloc_slow_len _ _ l Hl)). intros [[b c]|] H'; apply yields_ret; exact H'.
  Qed.

  Lemma chunk_realloc_len c p old new : 0 <= l_size new <= USIZE_MAX ->
    yields (chunk_realloc A dbg c p old new) (len_is (l_size new)).
  Proof.
    intros Hl. unfold chunk_realloc. apply (yields_bind _ _ _ _ (chunk_alloc_len c new Hl)).
    intros [b|] H; [|apply yields_ret; exact I]. apply yields_step. intros _. apply yields_ret. exact H.
  Qed.

  Lemma chunk_resize_len c p old new : 0 <= l_size new <= USIZE_MAX -> l_size old <= l_size new ->
    yields (chunk_resize A dbg c p old new) (len_is (l_size new)).
  Proof.
    intros Hl Ho. unfold chunk_resize. destruct (l_align new <=? l_align old); [|apply chunk_realloc_len; exact Hl].
    destruct (Z.leb_spec (l_size new) (l_size old)).
    { apply yields_ret. cbn. lia. }
    apply yields_step. intros oe. apply yields_step. intros cur. destruct (cur =? oe); [|apply chunk_realloc_len; exact Hl].
    unfold checked_add. destruct (p + l_size new <=? USIZE_MAX); [|apply yields_ret; exact I].
    apply yields_step. intros e. destruct (e <? p + l_size new); [apply yields_ret; exact I|].
    apply yields_step. intros n. apply yields_step. intros [|]; [|apply chunk_realloc_len; exact Hl].
    apply (yields_bind _ _ _ _ (yields_sub (p + l_size new) p)). intros len Hlen.
    apply yields_step. intros _. apply yields_ret. cbn [len_is b_len]. rewrite Hlen; lia.
  Qed.

  Lemma blink_resize_len p old new : 0 <= l_size new <= USIZE_MAX -> l_size old <= l_size new ->
    yields (blink_resize A dbg p old new) (len_is (l_size new)).
  Proof.
    intros Hl Ho. unfold blink_resize. apply (yields_bind _ _ (len_is (l_size new))).
    - unfold resize_fast. apply yields_with. intros ar. destruct (ar_root ar) as [r|]; [|apply yields_ret; exact I].
      apply (yields_bind _ _ _ _ (chunk_resize_len r p old new Hl Ho)). intros b H. apply yields_ret. exact H.
    - intros [b|] H; [apply yields_ret; exact H|]. unfold arena_resize_slow. apply yields_with. intros ar.
      unfold resize_slow. apply (yields_bind _ _ (fun r => len_is (l_size new) (option_map fst r))).
      + apply (yields_bind _ _ _ _ (alloc_slow_len _ _ new Hl)). intros [[b c]|] H'; [|apply yields_ret; exact I].
        apply yields_step. intros _. apply yields_ret. exact H'.
      + intros [[b c]|] H'; apply yields_ret; exact H'.
  Qed.

  Lemma wp_yields {X B} (m : M X B) w Q P : wp m w Q -> yields m P -> wp m w (fun b _ => P b).
  Proof. unfold wp. intros H Y. destruct (m w) eqn:E; try exact H. exact (Y _ _ _ E). Qed.

  (** [BlinkAlloc] over any allocator is exact. *)
  Lemma blink_exact amax smax own : smax <= USIZE_MAX -> contract amax smax (blink A dbg) own -> exact_alloc smax (blink A dbg) own.
  Proof.
    intros Hs Hct.
    assert (Hreq : forall l, req_ok smax l -> 0 <= l_size l <= USIZE_MAX).
    { intros l R. unfold req_ok, req_okb in R. apply andb_true_iff in R. destruct R as [R R3].
      apply andb_true_iff in R. destruct R as [R1 R2]. apply is_pow2_spec in R1. destruct R1 as (k & Hk & Ek). pose proof (Z.pow_pos_nonneg 2 k). lia. }
    split; [|split; [|reflexivity]].
    - intros w us l Ho Hl. eapply wp_yields; [apply (ct_allocate _ _ _ _ Hct w us l Ho Hl)|].
      apply blink_allocate_len. auto.
    - intros w us u old new Ho Hf Hl Hle. eapply wp_yields; [apply (ct_grow _ _ _ _ Hct w us u old new Ho Hf Hl Hle)|].
      apply blink_resize_len; auto.
  Qed.
End Exact.

(** ** Environments *)

(** An allocator with its reset method, and how it is configured. [e_own w us]:
    in state [w] exactly the blocks [us] are allocated from it.  [e_shared]: the
    [Blink] holds a shared reference, so that others use the allocator, too. *)
Record env := mkEnv {
  e_W : Type;
  e_A : Allocator e_W;
  e_own : e_W -> list ublock -> Prop;
  e_reset : M e_W unit;
  e_amax : Z;
  e_smax : Z;
  e_dbg : bool;
  e_bomb : Z -> Z -> bool;   (* which destructors panic *)
  e_exact : bool;            (* blocks have exactly the length asked for *)
  e_shared : bool
}.

(** The allocator keeps the contract of [Allocator] and accepts every valid
    [Layout]; resetting an exclusively owned allocator frees everything and
    leaves it usable, resetting a shared one leaves the blocks of others alone. *)
Definition env_ok (E : env) : Prop :=
  contract (e_amax E) (e_smax E) (e_A E) (e_own E) /\
  ISIZE_MAX <= e_smax E /\
  (e_exact E = true -> exact_alloc (e_smax E) (e_A E) (e_own E)) /\
  forall w us fr, e_own E w (us ++ fr) -> e_shared E = true \/ fr = [] ->
    wp (e_reset E) w (fun _ w' => exists us', e_own E w' (us' ++ fr) /\ same_on fr (al_mem (e_A E) w) (al_mem (e_A E) w')).

(** One operation, and a whole program, run on a [Blink]. *)
Definition erun1 (E : env) (o : bop) : M (bl (e_W E)) unit := bstep (e_A E) (e_reset E) (e_dbg E) (e_bomb E) false o.
Definition erun (E : env) (os : list bop) : M (bl (e_W E)) unit := bmain (e_A E) (e_reset E) (e_dbg E) (e_bomb E) os.

(** [w] is a state of the allocator in which others own the blocks [fr]. *)
Definition ready (E : env) (fr : list ublock) (w : e_W E) : Prop :=
  exists us, e_own E w (us ++ fr) /\ (e_shared E = true \/ fr = []).

(** The program [os] leads to the state [s] of the [Blink]. *)
Definition arrives (E : env) (fr : list ublock) (w : e_W E) (os : list bop) (s : bl (e_W E)) : Prop :=
  ready E fr w /\ forallb (sound (e_exact E)) os = true /\ erun E os (bl_new w) = ORet tt s.

(** A [BlinkAlloc] owned by the [Blink] ... *)
Definition owned (su : setup) (bomb : Z -> Z -> bool) : env :=
  mkEnv _ (ba su) (sown su) (do_reset su true) (su_amax su) (su_smax su) (su_dbg su) bomb true false.
(** ... or shared with others: api.rs 46-52. *)
Definition borrowed (su : setup) (bomb : Z -> Z -> bool) : env :=
  mkEnv _ (ba su) (sown su) (ret tt) (su_amax su) (su_smax su) (su_dbg su) bomb true true.
(** The adversarial allocator itself, shared. *)
Definition foreign (su : setup) (bomb : Z -> Z -> bool) : env :=
  mkEnv _ (bot su) (base_own (su_amax su) (su_bmax su)) (ret tt) (su_amax su) (su_bmax su) (su_dbg su) bomb false true.

Lemma owned_ok su bomb : setup_ok su -> ISIZE_MAX <= su_smax su -> env_ok (owned su bomb).
Proof.
  intros Hok Hs. split; [apply ba_contract; exact Hok|]. split; [exact Hs|]. cbn [e_exact e_smax e_A e_own e_reset e_shared owned e_W].
  split; [intros _; apply (blink_exact (bot su) (su_dbg su) (su_amax su)); [apply su_smax_ok; exact Hok|apply ba_contract; exact Hok]|].
  intros w us fr Ho [H| ->]; [discriminate|]. eapply wp_mono; [apply (ba_reset su Hok true w _ Ho)|].
  intros [] w' Ho'. exists []. split; [exact Ho'|]. intros u x [].
Qed.

Lemma borrowed_ok su bomb : setup_ok su -> ISIZE_MAX <= su_smax su -> env_ok (borrowed su bomb).
Proof.
  intros Hok Hs. split; [apply ba_contract; exact Hok|]. split; [exact Hs|]. cbn [e_exact e_smax e_A e_own e_reset e_shared borrowed e_W].
  split; [intros _; apply (blink_exact (bot su) (su_dbg su) (su_amax su)); [apply su_smax_ok; exact Hok|apply ba_contract; exact Hok]|].
  intros w us fr Ho _. apply wp_ret. exists us. split; [exact Ho|apply same_on_refl].
Qed.

Lemma foreign_ok su bomb : setup_ok su -> ISIZE_MAX <= su_bmax su -> env_ok (foreign su bomb).
Proof.
  intros Hok Hs. split; [apply su_ct; exact Hok|]. split; [exact Hs|]. cbn [e_exact e_smax e_A e_own e_reset e_shared foreign e_W].
  split; [discriminate|]. intros w us fr Ho _. apply wp_ret. exists us. split; [exact Ho|apply same_on_refl].
Qed.

(** ** Consequences of the invariant *)
Section Arrived.
  Variable E : env.
  Hypothesis HE : env_ok E.
  Notation einv := (binv (e_A E) (e_own E) (e_bomb E)).
  Notation ekeeps := (keeps (e_A E)).

  Let Hct := proj1 HE.
  Let Hsm := proj1 (proj2 HE).
  Let Hex := proj1 (proj2 (proj2 HE)).
  Let Hreset := proj2 (proj2 (proj2 HE)).

  Lemma erun_safe fr os s : forallb (sound (e_exact E)) os = true -> einv fr s -> e_shared E = true \/ fr = [] ->
    safe (erun E os) s (fun _ s' => einv fr s' /\ ekeeps fr s s') (fun _ => False).
  Proof.
    apply (bmain_ok (e_amax E) (e_smax E) (e_A E) (e_own E) Hct Hsm (e_reset E) (e_dbg E) (e_bomb E) (e_exact E) Hex
      (fun fr => e_shared E = true \/ fr = []) Hreset).
  Qed.

  Lemma arrived fr w os s : arrives E fr w os s -> einv fr s /\ same_on fr (al_mem (e_A E) w) (bmem (e_A E) s).
  Proof.
    intros ((us & Ho & HF) & Hs & Hr).
    pose proof (erun_safe fr os (bl_new w) Hs (bl_new_inv (e_A E) (e_own E) (e_bomb E) w us fr Ho) HF) as S.
    unfold safe in S. rewrite Hr in S. destruct S as [B [K _]]. split; [exact B|exact K].
  Qed.

  (** One more operation. *)
  Lemma arrived_step fr w os s o : arrives E fr w os s -> sound (e_exact E) o = true ->
    safe (erun1 E o) s
      (fun _ s' => einv fr s' /\ ekeeps fr s s' /\ ((legal o = true /\ did (e_bomb E) o s s') \/ (legal o = false /\ s' = s)))
      (fun s' => einv fr s' /\ ekeeps fr s s' /\ gave_up (e_bomb E) o s s').
  Proof.
    intros Ha Ho. destruct (arrived _ _ _ _ Ha) as [B _]. destruct Ha as ((us & _ & HF) & _).
    apply (bstep_ok (e_amax E) (e_smax E) (e_A E) (e_own E) Hct Hsm (e_reset E) (e_dbg E) (e_bomb E) (e_exact E) Hex
      (fun fr => e_shared E = true \/ fr = []) Hreset o fr s Ho B HF).
  Qed.
End Arrived.

