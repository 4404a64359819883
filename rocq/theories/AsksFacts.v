(** Which calls the parts of a [Blink] make. *)
From Verif Require Import Base BaseFacts Alloc AllocFacts History HistoryFacts Blink BlinkInv BlinkReset BlinkIter BlinkMain BlinkEnv BlinkYield BlinkProps Asks.

(** ** Taking notes changes nothing about the contract *)
Section Contract.
  Context {W : Type} (A : Allocator W) (own : W -> list ublock -> Prop) (amax smax : Z).

  Lemma wp_note {B} (m : M W B) ev s (Q : B -> W -> Prop) : wp m (fst s) Q -> wp (note m ev) s (fun b s' => Q b (fst s')).
  Proof. unfold wp, note. destruct (m (fst s)); auto. Qed.

  Lemma noted_contract : contract amax smax A own -> contract amax smax (noted A) (fun s us => own (fst s) us).
  Proof.
    intros C. constructor; cbn [noted al_mem al_set_mem al_allocate al_deallocate al_grow al_shrink fst].
    - intros w us us'. apply (ct_perm _ _ _ _ C).
    - intros w us. apply (ct_wf _ _ _ _ C).
    - intros w m. apply (ct_mem _ _ _ _ C).
    - intros w us m. apply (ct_write _ _ _ _ C).
    - intros w us l H Hl. apply (wp_note _ _ _ _ (ct_allocate _ _ _ _ C _ _ l H Hl)).
    - intros w us u l H Hl. apply (wp_note _ _ _ _ (ct_deallocate _ _ _ _ C _ _ u l H Hl)).
    - intros w us u old new H Hf Hl Hle. apply (wp_note _ _ _ _ (ct_grow _ _ _ _ C _ _ u old new H Hf Hl Hle)).
    - intros w us u old new H Hf Hl Hle. apply (wp_note _ _ _ _ (ct_shrink _ _ _ _ C _ _ u old new H Hf Hl Hle)).
  Qed.

  Lemma noted_exact : exact_alloc smax A own -> exact_alloc smax (noted A) (fun s us => own (fst s) us).
  Proof.
    intros (X1 & X2 & X3). split; [|split]; cbn [noted al_allocate al_grow al_shrink].
    - intros w us l H Hl. apply (wp_note _ _ _ _ (X1 _ _ l H Hl)).
    - intros w us u old new H Hf Hl Hle. apply (wp_note _ _ _ _ (X2 _ _ u old new H Hf Hl Hle)).
    - intros p old new. rewrite X3. reflexivity.
  Qed.
End Contract.

Lemma noting_ok E : env_ok E -> env_ok (noting E).
Proof.
  intros (C & Hs & Hx & Hr). split; [apply noted_contract; exact C|]. split; [exact Hs|].
  split; [intros X; apply noted_exact; apply Hx; exact X|].
  cbn [noting e_own e_reset e_shared e_A e_W]. intros w us fr Ho Hf. specialize (Hr (fst w) us fr Ho Hf).
  unfold wp, unnoted in *. destruct (e_reset E (fst w)); exact Hr.
Qed.

(** ** Calls *)
Section Makes.
  Context {W : Type}.
  Notation WN := (W * list uevent)%type.

  (** [P]: what is added to the notes if [m] returns, [Pp]: if it panics. *)
  Definition makes {B} (m : M (bl WN) B) (P : B -> list uevent -> Prop) (Pp : list uevent -> Prop) : Prop :=
    forall s, match m s with
              | ORet b s' => exists new, notes s' = new ++ notes s /\ P b new
              | OPanic s' => exists new, notes s' = new ++ notes s /\ Pp new
              | _ => True
              end.
  Definition none (new : list uevent) : Prop := new = [].
  Definition silent {B} (m : M (bl WN) B) : Prop := makes m (fun _ => none) none.

  Lemma makes_mono {B} (m : M (bl WN) B) (P P' : B -> list uevent -> Prop) (Pp Pp' : list uevent -> Prop) : makes m P Pp ->
    (forall b new, P b new -> P' b new) -> (forall new, Pp new -> Pp' new) -> makes m P' Pp'.
  Proof.
    intros H H1 H2 s. specialize (H s). destruct (m s) as [b s'|s'| |]; auto; destruct H as (new & E & X); exists new; auto.
  Qed.
  Lemma makes_bind {B C} (m : M (bl WN) B) (f : B -> M (bl WN) C) P (Pp : list uevent -> Prop) (Q : C -> list uevent -> Prop) (Qp : list uevent -> Prop) :
    makes m P Pp -> (forall new, Pp new -> Qp new) ->
    (forall b new, P b new -> makes (f b) (fun c more => Q c (more ++ new)) (fun more => Qp (more ++ new))) -> makes (bind m f) Q Qp.
  Proof.
    intros Hm Hp Hf s. unfold bind. specialize (Hm s). destruct (m s) as [b s'|s'| |]; auto.
    - destruct Hm as (new & E & X). specialize (Hf b new X s'). destruct (f b s') as [c s2|s2| |]; auto;
        destruct Hf as (more & E2 & Y); exists (more ++ new); rewrite <- app_assoc, <- E; auto.
    - destruct Hm as (new & E & X). exists new. auto.
  Qed.
  Lemma silent_bind {B C} (m : M (bl WN) B) (f : B -> M (bl WN) C) Q (Qp : list uevent -> Prop) :
    silent m -> Qp [] -> (forall b, makes (f b) Q Qp) -> makes (bind m f) Q Qp.
  Proof.
    intros Hm H0 Hf. apply (makes_bind m f _ _ Q Qp Hm); [intros ? ->; exact H0|]. intros b new ->.
    apply (makes_mono _ _ _ _ _ (Hf b)); intros; rewrite app_nil_r; assumption.
  Qed.
  Lemma makes_ret {B} (b : B) (P : B -> list uevent -> Prop) Pp : P b [] -> makes (ret b) P Pp.
  Proof. intros H s. exists []. auto. Qed.
  Lemma makes_panic {B} (P : B -> list uevent -> Prop) (Pp : list uevent -> Prop) : Pp [] -> makes (panic : M (bl WN) B) P Pp.
  Proof. intros H s. exists []. auto. Qed.
  Lemma makes_abort {B} (P : B -> list uevent -> Prop) Pp : makes (abort : M (bl WN) B) P Pp.
  Proof. intros s. exact I. Qed.
  Lemma makes_ub {B} (P : B -> list uevent -> Prop) Pp : makes (ub : M (bl WN) B) P Pp.
  Proof. intros s. exact I. Qed.
  Lemma s_ret {B} (b : B) : silent (ret b).
  Proof. apply makes_ret. reflexivity. Qed.
  Lemma s_panic {B} : silent (panic : M (bl WN) B).
  Proof. apply makes_panic. reflexivity. Qed.
  Lemma s_abort {B} : silent (abort : M (bl WN) B). Proof. apply makes_abort. Qed.
  Lemma s_ub {B} : silent (ub : M (bl WN) B). Proof. apply makes_ub. Qed.
  Lemma s_bind {B C} (m : M (bl WN) B) (f : B -> M (bl WN) C) : silent m -> (forall b, silent (f b)) -> silent (bind m f).
  Proof. intros Hm Hf. apply silent_bind; [exact Hm|reflexivity|exact Hf]. Qed.
  Lemma s_log e : silent (log (W := WN) e). Proof. intros s. exists []. split; reflexivity. Qed.
  Lemma s_get_root : silent (get_root (W := WN)). Proof. intros s. exists []. split; reflexivity. Qed.
  Lemma s_set_root r : silent (set_root (W := WN) r). Proof. intros s. exists []. split; reflexivity. Qed.
  Lemma s_hand h vs : silent (hand_out (W := WN) h vs). Proof. intros s. exists []. split; reflexivity. Qed.
  Lemma s_invalidate : silent (invalidate (W := WN)). Proof. intros s. exists []. split; reflexivity. Qed.
  Lemma s_assert b c : silent (debug_assert b c : M (bl WN) unit).
  Proof. unfold debug_assert. destruct (b && negb c); [apply s_panic|apply s_ret]. Qed.

  Lemma makes_unwind {B} (m : M (bl WN) B) h P (Pp : list uevent -> Prop) : makes m P Pp ->
    (forall new, Pp new -> makes h (fun _ more => Pp (more ++ new)) (fun _ => True)) -> makes (on_unwind m h) P Pp.
  Proof.
    intros Hm Hh s. unfold on_unwind. specialize (Hm s). destruct (m s) as [b s'|s'| |]; auto.
    destruct Hm as (new & E & X). specialize (Hh new X s'). destruct (h s') as [u s2|s2| |]; auto.
    destruct Hh as (more & E2 & Y). exists (more ++ new). rewrite <- app_assoc, <- E. auto.
  Qed.
  Lemma s_unwind {B} (m : M (bl WN) B) h : silent m -> silent h -> silent (on_unwind m h).
  Proof.
    intros Hm Hh. apply makes_unwind; [exact Hm|]. intros new ->.
    apply (makes_mono _ _ _ _ _ Hh); [intros b new -> | intros new _]; [reflexivity|exact I].
  Qed.
End Makes.

Ltac sil := repeat first
  [ apply s_bind; [|intros ?] | apply s_ret | apply s_panic | apply s_abort | apply s_ub | apply s_log
  | apply s_get_root | apply s_set_root | apply s_hand | apply s_invalidate | apply s_assert ].

Section Parts.
  Context {W : Type} (A : Allocator W) (alloc_reset : M W unit) (dbg : bool) (bomb : Z -> Z -> bool).
  Notation WN := (W * list uevent)%type.
  Notation A' := (noted A).

  Lemma s_load a n align : silent (load_at A' a n align).
  Proof.
    unfold load_at. destruct (a mod align =? 0); [|apply s_ub]. intros s. unfold on_alloc, mload.
    destruct (load _ _ _); [exists []; split; reflexivity|exact I].
  Qed.
  Lemma s_store a n align v : silent (store_at A' a n align v).
  Proof. unfold store_at. destruct (a mod align =? 0); [|apply s_ub]. intros s. exists []. split; reflexivity. Qed.
  Lemma s_fill a n c : silent (on_alloc (mfill A' a n c)).
  Proof. intros s. exists []. split; reflexivity. Qed.
  Lemma s_read n a : silent (read_value A' n a).
  Proof.
    unfold read_value. destruct (n =? 0); [apply s_ret|]. intros s. unfold on_alloc, mload.
    destruct (load _ _ _); [exists []; split; reflexivity|exact I].
  Qed.
  Lemma s_value T a v : silent (write_value A' T a v). Proof. apply s_store. Qed.
  Lemma s_result T r a o : silent (write_result A' T r a o).
  Proof.
    unfold write_result. destruct (a mod r_align r =? 0); [|apply s_ub]. apply s_bind; [apply s_fill|]. intros _.
    destruct o; [apply s_value|apply s_ret].
  Qed.
  Lemma s_drops p c g n : silent (write_drops A' p c g n).
  Proof. unfold write_drops. sil; apply s_store. Qed.
  Lemma s_add p : silent (drop_list_add A' p).
  Proof. unfold drop_list_add. sil. apply s_store. Qed.
  Lemma s_elems g n : forall a p, silent (drop_elems A' bomb g a n p).
  Proof.
    induction n as [|n IH]; intros a p; cbn [drop_elems]; [apply s_ret|].
    apply s_bind; [apply s_read|]. intros v. apply s_bind; [apply s_log|]. intros _.
    destruct (bomb (g_id g) v); [|apply IH]. destruct p; [apply s_abort|apply IH].
  Qed.
  Lemma s_drops_drop p : silent (drops_drop A' bomb p).
  Proof.
    unfold drops_drop. apply s_bind; [apply s_load|]. intros c. apply s_bind; [apply s_load|]. intros f.
    apply s_bind; [apply s_load|]. intros n. apply s_bind; [apply s_elems|]. intros []; [apply s_panic|apply s_ret].
  Qed.
  Lemma s_loop fuel : forall p, silent (drop_loop A' bomb fuel p).
  Proof.
    induction fuel as [|fuel IH]; intros [a|]; cbn [drop_loop]; try apply s_ret; [apply s_ub|].
    apply s_bind; [apply s_drops_drop|]. intros n. apply IH.
  Qed.
  Lemma s_reset : silent (drop_list_reset A' bomb).
  Proof. unfold drop_list_reset. sil. apply s_loop. Qed.
  Lemma s_unnoted (m : M W unit) : silent (on_alloc (unnoted m)).
  Proof. intros s. unfold on_alloc, unnoted. destruct (m (fst (bl_w s))); auto; exists []; split; reflexivity. Qed.
  Lemma s_set_elem h i v : silent (set_elem A' h i v).
  Proof.
    intros s. unfold set_elem. destruct (get h (bl_tab s)) as [x|]; [|exists []; split; reflexivity].
    destruct (h_mut x && _ && _); [|exists []; split; reflexivity].
    apply s_bind; [destruct (h_size x =? 0); [apply s_ret|apply s_store]|]. intros _. apply s_log.
  Qed.

  (** A request. *)
  Lemma m_alloc l : makes (on_alloc (al_allocate A' l)) (fun r new => new = [EvAlloc l r]) none.
  Proof.
    intros s. unfold on_alloc. cbn [noted al_allocate]. unfold note. destruct (al_allocate A l (fst (bl_w s))); auto.
    - exists [EvAlloc l a]. split; reflexivity.
    - exists []. split; reflexivity.
  Qed.
  Lemma m_grow p old new : makes (on_alloc (al_grow A' p old new)) (fun r evs => evs = [EvResize p old new r]) none.
  Proof.
    intros s. unfold on_alloc. cbn [noted al_grow]. unfold note. destruct (al_grow A p old new (fst (bl_w s))); auto.
    - exists [EvResize p old new a]. split; reflexivity.
    - exists []. split; reflexivity.
  Qed.
  Lemma m_dealloc p l : makes (on_alloc (al_deallocate A' p l)) (fun _ new => new = [EvDealloc p l]) none.
  Proof.
    intros s. unfold on_alloc. cbn [noted al_deallocate]. unfold note. destruct (al_deallocate A p l (fst (bl_w s))); auto.
    - exists [EvDealloc p l]. split; reflexivity.
    - exists []. split; reflexivity.
  Qed.

  (** ** Single values *)
  Lemma s_late T v : silent (drop_unwinding (W := WN) bomb T v).
  Proof. unfold drop_unwinding. destruct (t_drop T); [|apply s_ret]. apply s_bind; [apply s_log|]. intros _. destruct (bomb _ _); [apply s_abort|apply s_ret]. Qed.
  Lemma s_failed tr (back lost : M (bl WN) unit) : silent back -> silent lost -> silent (alloc_failed tr back lost).
  Proof.
    intros H H'. unfold alloc_failed. destruct tr; [|apply s_abort|].
    - apply s_bind; [apply s_log|]. intros _. exact H.
    - apply s_bind; [exact H'|]. intros _. apply s_panic.
  Qed.

  Lemma m_closure out : makes (closure (ret tt : M (bl WN) unit) out)
    (fun o new => new = [] /\ match out with COk v => o = inl (Some v) | CErr x => o = inr x | CPanic => False end) none.
  Proof. unfold closure. intros s. cbn. destruct out; exists []; repeat split; auto. Qed.

  Lemma m_emplace k tr T r e out : makes (emplace A' bomb k tr T r e (ret tt) out)
    (fun _ => placing (placed_lay k T e) out) (at_most (placed_lay k T e)).
  Proof.
    assert (Hb : silent (match out with COk v => log (EBack (t_id T) v) | _ => ret tt end : M (bl WN) unit)) by (destruct out; sil).
    assert (Hb' : silent (match out with COk v => drop_unwinding bomb T v | _ => ret tt end : M (bl WN) unit)) by (destruct out; [apply s_late|sil..]).
    assert (Hend : forall lay b o (h : Z -> M (bl WN) unit), (forall v, silent (h v)) ->
      match out with COk v => o = inl (Some v) | CErr x => o = inr x | CPanic => False end ->
      makes (match o with inl (Some v) => h v | inl None => ub | inr err => on_alloc (al_deallocate A' (b_ptr b) lay) ;;; log (EErr err) end)
        (fun _ more => placing lay out (more ++ [EvAlloc lay (Some b)])) (fun more => at_most lay (more ++ [EvAlloc lay (Some b)]))).
    { intros lay b o h Hh Ho. destruct out as [v|x|]; [| |contradiction]; subst o.
      - apply (makes_mono _ _ _ _ _ (Hh v)); [intros [] new -> | intros new ->]; [exists (Some b); reflexivity|right; exists (Some b); reflexivity].
      - eapply makes_bind; [apply m_dealloc|intros new ->; right; exists (Some b); reflexivity|]. intros _ new ->.
        intros s. exists []. split; [reflexivity|]. exists (Some b). reflexivity. }
    unfold emplace, placed_lay, dropping.
    destruct (negb (t_drop T) || no_drop k); cbn [negb].
    - unfold emplace_no_drop. eapply makes_bind; [apply m_alloc|intros ? ->; left; reflexivity|]. intros [b|] new ->.
      + eapply makes_bind; [apply m_closure|intros new ->; right; exists (Some b); reflexivity|]. intros o new [-> Ho].
        apply (silent_bind _ _ _ _ (s_result _ _ _ _)); [right; exists (Some b); reflexivity|]. intros _. cbn [app].
        eapply makes_mono; [apply (Hend (mkLayout (t_size T) (t_align T)) b o (fun v => hand_out _ [Some v])); [intros v; apply s_hand|exact Ho]
          |intros; rewrite app_nil_r; assumption..].
      + apply (makes_mono _ _ _ _ _ (s_failed tr _ _ Hb Hb')); [intros [] new -> | intros new ->]; [exists None; reflexivity|right; exists None; reflexivity].
    - unfold emplace_drop. eapply makes_bind; [apply m_alloc|intros ? ->; left; reflexivity|]. intros [b|] new ->.
      + eapply makes_bind; [apply m_closure|intros new ->; right; exists (Some b); reflexivity|]. intros o new [-> Ho].
        apply (silent_bind _ _ _ _ (s_result _ _ _ _)); [right; exists (Some b); reflexivity|]. intros _.
        apply (silent_bind _ _ _ _ (s_drops _ _ _ _)); [right; exists (Some b); reflexivity|]. intros _. cbn [app].
        eapply makes_mono; [apply (Hend (item_layout (r_size e) (r_align e)) b o (fun v => drop_list_add A' (b_ptr b) ;;; hand_out _ [Some v])); [|exact Ho]
          |intros; rewrite app_nil_r; assumption..].
        intros v. apply s_bind; [apply s_add|]. intros _. apply s_hand.
      + apply (makes_mono _ _ _ _ _ (s_failed tr _ _ Hb Hb')); [intros [] new -> | intros new ->]; [exists None; reflexivity|right; exists None; reflexivity].
  Qed.

  Lemma m_one lay (f : option block -> M (bl WN) unit) : (forall a, silent (f a)) ->
    makes (bind (on_alloc (al_allocate A' lay)) f) (fun _ new => exists a, new = [EvAlloc lay a]) (at_most lay).
  Proof.
    intros Hf. eapply makes_bind; [apply m_alloc|intros ? ->; left; reflexivity|]. intros a new ->.
    apply (makes_mono _ _ _ _ _ (Hf a)); [intros [] new -> | intros new ->]; [exists a; reflexivity|right; exists a; reflexivity].
  Qed.
  Lemma s_write_all T vs : forall a, silent (write_all A' T a vs).
  Proof. induction vs as [|v vs IH]; intros a; cbn [write_all]; [apply s_ret|]. apply s_bind; [apply s_value|]. intros _. apply IH. Qed.
  Lemma m_copy tr T vs : let lay := mkLayout (Z.of_nat (length vs) * t_size T) (t_align T) in
    makes (copy_slice A' tr T vs) (fun _ new => exists a, new = [EvAlloc lay a]) (at_most lay).
  Proof.
    cbv zeta. unfold copy_slice. apply m_one. intros [b|]; [|apply s_failed; apply s_ret]. apply s_bind; [apply s_write_all|]. intros _. apply s_hand.
  Qed.
  Lemma m_uninit tr T : let lay := mkLayout (t_size T) (t_align T) in
    makes (uninit A' tr T) (fun _ new => exists a, new = [EvAlloc lay a]) (at_most lay).
  Proof. cbv zeta. unfold uninit. apply m_one. intros [b|]; [apply s_hand|apply s_failed; apply s_ret]. Qed.
End Parts.
