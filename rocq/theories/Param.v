(** Everything is parametric in the underlying allocator: if two allocators answer alike, then so do
    the allocators built on them, and programs do the same on both.  Used by C79 and C80. *)
From Verif Require Import Base BaseFacts Alloc AllocFacts Arena BlinkAlloc History Proxy Global.

Section Param.
  Context {W1 W2 : Type} (R : W1 -> W2 -> Prop).

  (** [m2] does what [m1] does, unless that is undefined. *)
  Definition like {B} (m1 : M W1 B) (m2 : M W2 B) : Prop :=
    forall w1 w2, R w1 w2 ->
      match m1 w1 with
      | ORet b w1' => exists w2', m2 w2 = ORet b w2' /\ R w1' w2'
      | OPanic w1' => exists w2', m2 w2 = OPanic w2' /\ R w1' w2'
      | OAbort => m2 w2 = OAbort
      | OUB => True
      end.

  Lemma like_bind {B C} (m1 : M W1 B) m2 (f1 : B -> M W1 C) f2 : like m1 m2 -> (forall b, like (f1 b) (f2 b)) -> like (bind m1 f1) (bind m2 f2).
  Proof.
    intros Hm Hf w1 w2 H. unfold bind. specialize (Hm w1 w2 H). destruct (m1 w1) as [b w|w| |]; [|destruct Hm as (w' & -> & H'); eauto|rewrite Hm; reflexivity|exact I].
    destruct Hm as (w' & -> & H'). exact (Hf b w w' H').
  Qed.
  Lemma like_ret {B} (b : B) : like (ret b) (ret b). Proof. intros w1 w2 H. exists w2. auto. Qed.
  Lemma like_panic {B} : like (panic : M W1 B) panic. Proof. intros w1 w2 H. exists w2. auto. Qed.
  Lemma like_abort {B} : like (abort : M W1 B) abort. Proof. intros w1 w2 H. reflexivity. Qed.
  Lemma like_ub {B} (m : M W2 B) : like (ub : M W1 B) m. Proof. intros w1 w2 H. exact I. Qed.
  Lemma like_assert b c : like (debug_assert b c) (debug_assert b c).
  Proof. unfold debug_assert. destruct (b && negb c); [apply like_panic|apply like_ret]. Qed.
  Lemma like_add d a b : like (add_usize d a b) (add_usize d a b).
  Proof. unfold add_usize. destruct (_ <=? _); [apply like_ret|]. destruct d; [apply like_panic|apply like_ret]. Qed.
  Lemma like_sub d a b : like (sub_usize d a b) (sub_usize d a b).
  Proof. unfold sub_usize. destruct (_ <=? _); [apply like_ret|]. destruct d; [apply like_panic|apply like_ret]. Qed.
End Param.

(** What clients write ([OpWrite] in History.v, [GWrite] in Global.v). *)
Definition mwrite {W} (A : Allocator W) (a : Z) (cs : list cell) : M W unit :=
  fun w => ORet tt (al_set_mem A w (write_cells (al_mem A w) a cs)).

(** Two allocators that answer alike. *)
Record alike {W1 W2} (R : W1 -> W2 -> Prop) (A1 : Allocator W1) (A2 : Allocator W2) : Prop := mkAlike {
  ak_load : forall a n, like R (mload A1 a n) (mload A2 a n);
  ak_store : forall a n v, like R (mstore A1 a n v) (mstore A2 a n v);
  ak_fill : forall a n c, like R (mfill A1 a n c) (mfill A2 a n c);
  ak_allocate : forall l, like R (al_allocate A1 l) (al_allocate A2 l);
  ak_deallocate : forall p l, like R (al_deallocate A1 p l) (al_deallocate A2 p l);
  ak_grow : forall p old new, like R (al_grow A1 p old new) (al_grow A2 p old new);
  ak_shrink : forall p old new, like R (al_shrink A1 p old new) (al_shrink A2 p old new);
  ak_copy : forall src dst n, like R (mcopy A1 src dst n) (mcopy A2 src dst n);
  ak_write : forall a cs, like R (mwrite A1 a cs) (mwrite A2 a cs) }.

(** Two arenas on them. *)
Definition both_arenas {W1 W2} (R : W1 -> W2 -> Prop) (s1 : AW (W := W1)) (s2 : AW (W := W2)) : Prop :=
  fst s2 = fst s1 /\ R (snd s1) (snd s2).

Section Arenas.
  Context {W1 W2 : Type} (R : W1 -> W2 -> Prop) (A1 : Allocator W1) (A2 : Allocator W2) (HA : alike R A1 A2) (dbg : bool).
  Notation lk := (like R).
  Notation la := (like (both_arenas R)).

  Lemma lk_word a : lk (mload A1 a 8) (mload A2 a 8). Proof. apply HA. Qed.
  Lemma lk_set_word a v : lk (mstore A1 a 8 v) (mstore A2 a 8 v). Proof. apply HA. Qed.
  Lemma lk_ptr_add p n : lk (ptr_add p n) (ptr_add p n).
  Proof. unfold ptr_add. destruct (_ <=? _); [apply like_ret|apply like_ub]. Qed.

  Ltac lk := repeat first
    [ match goal with |- like _ (bind _ _) _ => apply like_bind end
    | match goal with |- forall _, _ => intros ? end
    | apply like_ret | apply like_panic | apply like_abort | apply like_ub | apply like_assert | apply like_add | apply like_sub
    | apply lk_word | apply lk_set_word | apply lk_ptr_add
    | apply (ak_allocate _ _ _ HA) | apply (ak_deallocate _ _ _ HA) | apply (ak_grow _ _ _ HA) | apply (ak_shrink _ _ _ HA)
    | apply (ak_copy _ _ _ HA) | apply (ak_fill _ _ _ HA) ].

  Lemma lk_sum l : lk (layout_sum dbg l) (layout_sum dbg l). Proof. apply like_add. Qed.
  Lemma lk_cap c : lk (chunk_cap A1 c) (chunk_cap A2 c). Proof. unfold chunk_cap. lk. Qed.
  Lemma lk_init b prev : lk (init_chunk A1 dbg b prev) (init_chunk A2 dbg b prev).
  Proof. unfold init_chunk. cbv zeta. lk. destruct prev; lk. apply lk_cap. Qed.
  Lemma lk_alloc_chunk size prev : lk (alloc_chunk A1 dbg size prev) (alloc_chunk A2 dbg size prev).
  Proof. unfold alloc_chunk. destruct (align_up _ _); lk. match goal with |- like _ (match ?x with _ => _ end) _ => destruct x end; lk. apply lk_init. Qed.
  Lemma lk_dealloc_chunk c : lk (dealloc_chunk A1 c) (dealloc_chunk A2 c). Proof. unfold dealloc_chunk. lk. Qed.
  Lemma lk_attempt l c e : lk (alloc_attempt dbg l c e) (alloc_attempt dbg l c e).
  Proof.
    unfold alloc_attempt. apply like_bind; [apply lk_sum|]. intros sum. destruct (checked_add _ _); lk. destruct (_ <? _); lk.
  Qed.
  Lemma lk_cas_weak p o n : lk (cell_cas_weak A1 dbg p o n) (cell_cas_weak A2 dbg p o n). Proof. unfold cell_cas_weak. lk. Qed.
  Lemma lk_cas p o n : lk (cell_cas A1 p o n) (cell_cas A2 p o n). Proof. unfold cell_cas. lk. destruct (_ =? _); lk. Qed.
  Lemma lk_chunk_alloc c l : lk (chunk_alloc A1 dbg c l) (chunk_alloc A2 dbg c l).
  Proof.
    unfold chunk_alloc. apply like_bind; [lk|]. intros cur. apply like_bind; [lk|]. intros e. apply like_bind; [apply lk_attempt|].
    intros [[a n]|]; [|lk]. apply like_bind; [apply lk_cas_weak|]. intros _. lk.
  Qed.
  Lemma lk_chunk_realloc c p old new : lk (chunk_realloc A1 dbg c p old new) (chunk_realloc A2 dbg c p old new).
  Proof. unfold chunk_realloc. apply like_bind; [apply lk_chunk_alloc|]. intros [b|]; lk. Qed.
  Lemma lk_chunk_resize c p old new : lk (chunk_resize A1 dbg c p old new) (chunk_resize A2 dbg c p old new).
  Proof.
    unfold chunk_resize. destruct (_ <=? _); [|apply lk_chunk_realloc]. destruct (_ <=? _); [lk|].
    apply like_bind; [lk|]. intros oe. apply like_bind; [lk|]. intros cur. destruct (_ =? _); [|apply lk_chunk_realloc].
    destruct (checked_add _ _); [|lk]. apply like_bind; [lk|]. intros e. destruct (_ <? _); [lk|]. apply like_bind; [lk|]. intros n.
    apply like_bind; [apply lk_cas|]. intros [|]; [lk|apply lk_chunk_realloc].
  Qed.
  Lemma lk_chunk_reset c : lk (chunk_reset A1 c) (chunk_reset A2 c).
  Proof. unfold chunk_reset. apply like_bind; [lk|]. intros e. apply like_bind; [apply lk_cap|]. intros cap. lk. Qed.
  Lemma lk_chunk_dealloc c p n : lk (chunk_dealloc A1 c p n) (chunk_dealloc A2 c p n).
  Proof. unfold chunk_dealloc. apply like_bind; [lk|]. intros x. apply like_bind; [apply lk_cas|]. intros ?. lk. Qed.
  Lemma lk_slow root min l : lk (alloc_slow A1 dbg root min l) (alloc_slow A2 dbg root min l).
  Proof.
    unfold alloc_slow. apply like_bind; [destruct root; lk|]. intros cum. destruct (next_chunk_size _ _ _); [|lk].
    apply like_bind; [lk|]. intros _. apply like_bind; [apply lk_alloc_chunk|]. intros [c|]; [|lk]. apply like_bind; [apply lk_chunk_alloc|]. intros [b|]; lk.
  Qed.
  Lemma lk_resize_slow root min p old new : lk (resize_slow A1 dbg root min p old new) (resize_slow A2 dbg root min p old new).
  Proof. unfold resize_slow. apply like_bind; [apply lk_slow|]. intros [[b c]|]; lk. Qed.
  Lemma lk_free n : forall c, lk (free_chain A1 n c) (free_chain A2 n c).
  Proof.
    induction n as [|n IH]; intros [c|]; cbn [free_chain]; try (solve [lk]). apply like_bind; [apply lk_dealloc_chunk|]. intros p. apply IH.
  Qed.

  Lemma la_with {B} (f1 : Arena -> M W1 (B * Arena)) f2 : (forall ar, lk (f1 ar) (f2 ar)) -> la (with_aw f1) (with_aw f2).
  Proof.
    intros H [ar w1] [ar2 w2] [E HR]. cbn [fst snd] in *. subst ar2. unfold with_aw. cbn [fst snd]. specialize (H ar w1 w2 HR).
    destruct (f1 ar w1) as [[b ar'] w|w| |]; [destruct H as (w' & -> & H')|destruct H as (w' & -> & H')|rewrite H; reflexivity|exact I];
      (eexists; split; [reflexivity|]; split; [reflexivity|exact H']).
  Qed.
  Lemma la_last : la (last_chunk_size A1) (last_chunk_size A2).
  Proof. apply la_with. intros ar. destruct (ar_root ar); lk. apply lk_cap. Qed.
  Lemma la_fast l : la (alloc_fast A1 dbg l) (alloc_fast A2 dbg l).
  Proof. apply la_with. intros ar. destruct (ar_root ar); lk. apply lk_chunk_alloc. Qed.
  Lemma la_slow l : la (arena_alloc_slow A1 dbg l) (arena_alloc_slow A2 dbg l).
  Proof. apply la_with. intros ar. apply like_bind; [apply lk_slow|]. intros [[b c]|]; lk. Qed.
  Lemma la_resize_fast p old new : la (resize_fast A1 dbg p old new) (resize_fast A2 dbg p old new).
  Proof. apply la_with. intros ar. destruct (ar_root ar); lk. apply lk_chunk_resize. Qed.
  Lemma la_resize_slow p old new : la (arena_resize_slow A1 dbg p old new) (arena_resize_slow A2 dbg p old new).
  Proof. apply la_with. intros ar. apply like_bind; [apply lk_resize_slow|]. intros [[b c]|]; lk. Qed.
  Lemma la_dealloc p n : la (dealloc A1 p n) (dealloc A2 p n).
  Proof. apply la_with. intros ar. unfold arena_dealloc. lk. destruct (ar_root ar); [apply lk_chunk_dealloc|lk]. Qed.
  Lemma la_reset keep : la (arena_reset A1 keep) (arena_reset A2 keep).
  Proof.
    apply la_with. intros ar. destruct keep; [destruct (ar_root ar); [|lk]|].
    - apply like_bind; [apply lk_chunk_reset|]. intros p. apply like_bind; [apply lk_free|]. intros _. lk.
    - apply like_bind; [apply lk_free|]. intros _. lk.
  Qed.
  Lemma la_reset_leak keep : la (arena_reset_leak A1 keep) (arena_reset_leak A2 keep).
  Proof.
    apply la_with. intros ar. destruct keep; [destruct (ar_root ar); [|lk]|lk]. apply like_bind; [apply lk_chunk_reset|]. intros p. lk.
  Qed.
  Lemma la_inner {B} (m1 : M W1 B) m2 : lk m1 m2 -> la (inner m1) (inner m2).
  Proof. intros H. apply la_with. intros ar. apply like_bind; [exact H|]. intros b. lk. Qed.
  Lemma la_allocate l : la (blink_allocate A1 dbg l) (blink_allocate A2 dbg l).
  Proof. unfold blink_allocate. apply like_bind; [apply la_fast|]. intros [b|]; [apply like_ret|apply la_slow]. Qed.
  Lemma la_resize p old new : la (blink_resize A1 dbg p old new) (blink_resize A2 dbg p old new).
  Proof. unfold blink_resize. apply like_bind; [apply la_resize_fast|]. intros [b|]; [apply like_ret|apply la_resize_slow]. Qed.
  Lemma la_assert_root : la (fun aw => debug_assert dbg (match ar_root (fst aw) with None => true | Some _ => false end) aw)
    (fun aw => debug_assert dbg (match ar_root (fst aw) with None => true | Some _ => false end) aw).
  Proof. intros s1 s2 H. rewrite (proj1 H). exact (like_assert (both_arenas R) _ _ s1 s2 H). Qed.
  Lemma la_drop : la (blink_drop A1 dbg) (blink_drop A2 dbg).
  Proof. unfold blink_drop. apply like_bind; [apply la_reset|]. intros _. apply la_assert_root. Qed.

  (** Memory accesses go through. *)
  Lemma la_mem {B} (f1 : M W1 B) f2 (g1 : M (AW (W := W1)) B) (g2 : M (AW (W := W2)) B) : lk f1 f2 ->
    (forall s, g1 s = inner f1 s) -> (forall s, g2 s = inner f2 s) -> la g1 g2.
  Proof. intros H E1 E2 s1 s2 Hs. rewrite E1, E2. exact (la_inner f1 f2 H s1 s2 Hs). Qed.
  Lemma blink_alike : alike (both_arenas R) (blink A1 dbg) (blink A2 dbg).
  Proof.
    constructor; intros; cbn [blink al_allocate al_deallocate al_grow al_shrink];
      try apply la_allocate; try apply la_dealloc; try apply la_resize.
    - eapply la_mem; [apply (ak_load _ _ _ HA a n)| |]; intros [ar w]; unfold mload, inner, with_aw, bind; cbn; destruct (load _ _ _); reflexivity.
    - eapply la_mem; [apply (ak_store _ _ _ HA a n v)| |]; intros [ar w]; reflexivity.
    - eapply la_mem; [apply (ak_fill _ _ _ HA a n c)| |]; intros [ar w]; reflexivity.
    - eapply la_mem; [apply (ak_copy _ _ _ HA src dst n)| |]; intros [ar w]; unfold mcopy, inner, with_aw, bind; cbn; destruct (_ || _); reflexivity.
    - eapply la_mem; [apply (ak_write _ _ _ HA a cs)| |]; intros [ar w]; reflexivity.
  Qed.
End Arenas.

(** ** Clients *)

Section Defaults.
  Context {W1 W2 : Type} (R : W1 -> W2 -> Prop) (A1 : Allocator W1) (A2 : Allocator W2) (HA : alike R A1 A2).
  Lemma lk_zeroed l : like R (al_allocate_zeroed A1 l) (al_allocate_zeroed A2 l).
  Proof.
    unfold al_allocate_zeroed. apply like_bind; [apply HA|]. intros [b|]; [|apply like_ret]. apply like_bind; [apply HA|]. intros _. apply like_ret.
  Qed.
  Lemma lk_grow_zeroed p old new : like R (al_grow_zeroed A1 p old new) (al_grow_zeroed A2 p old new).
  Proof.
    unfold al_grow_zeroed. apply like_bind; [apply lk_zeroed|]. intros [b|]; [|apply like_ret]. apply like_bind; [apply HA|]. intros _.
    apply like_bind; [apply HA|]. intros _. apply like_ret.
  Qed.
End Defaults.

(** Two clients with the same blocks. *)
Definition both_clients {W1 W2} (R : W1 -> W2 -> Prop) (s1 : cst W1) (s2 : cst W2) : Prop :=
  c_tab s2 = c_tab s1 /\ R (c_w s1) (c_w s2).

Section Clients.
  Context {W1 W2 : Type} (R : W1 -> W2 -> Prop) (A1 : Allocator W1) (A2 : Allocator W2) (HA : alike R A1 A2)
    (smax : Z) (reset1 : bool -> M W1 unit) (reset2 : bool -> M W2 unit) (Hreset : forall keep, like R (reset1 keep) (reset2 keep)).
  Notation lc := (like (both_clients R)).

  Lemma lc_call {B} (m1 : M W1 B) m2 f : like R m1 m2 -> lc (call m1 f) (call m2 f).
  Proof.
    intros H [t w1] [t2 w2] [E HR]. cbn [c_tab c_w] in *. subst t2. unfold call. cbn [c_tab c_w]. specialize (H w1 w2 HR).
    destruct (m1 w1) as [b w|w| |]; [destruct H as (w' & -> & H')|destruct H as (w' & -> & H')|rewrite H; reflexivity|exact I];
      (eexists; split; [reflexivity|]; split; [reflexivity|exact H']).
  Qed.
  Lemma lc_step_at o t : lc (step_at smax A1 reset1 o t) (step_at smax A2 reset2 o t).
  Proof.
    destruct o as [l z|h off cs|h l|h old new|h old new|keep]; cbn [step_at].
    - destruct (req_okb smax l); [|apply like_ret]. apply lc_call. destruct z; [apply lk_zeroed; exact HA|apply HA].
    - destruct (get h t) as [u|]; [|apply like_ret]. destruct (_ && _); [|apply like_ret].
      intros [t1 w1] [t2 w2] [E HR]. cbn [c_tab c_w] in *. subst t2. pose proof (ak_write _ _ _ HA (u_ptr u + off) cs w1 w2 HR) as H.
      unfold mwrite in H. destruct H as (w' & E' & H'). injection E' as E'. eexists. split; [reflexivity|]. split; [reflexivity|]. cbn [c_w]. rewrite E'. exact H'.
    - destruct (get h t) as [u|]; [|apply like_ret]. destruct (fitsb l u); [|apply like_ret]. apply like_bind; [apply lc_call, HA|]. intros _. apply like_ret.
    - destruct (get h t) as [u|]; [|apply like_ret]. destruct (_ && _); [|apply like_ret]. apply lc_call. destruct (_ <=? _); apply HA.
    - destruct (get h t) as [u|]; [|apply like_ret]. destruct (_ && _); [|apply like_ret]. apply lc_call. apply lk_grow_zeroed. exact HA.
    - apply like_bind; [apply lc_call, Hreset|]. intros _. apply like_ret.
  Qed.
  Lemma lc_step o : lc (step smax A1 reset1 o) (step smax A2 reset2 o).
  Proof. intros s1 s2 H. unfold step. rewrite (proj1 H). apply lc_step_at. exact H. Qed.
  Lemma lc_run os : lc (run smax A1 reset1 os) (run smax A2 reset2 os).
  Proof.
    induction os as [|o os IH]; cbn [run]; [apply like_ret|]. apply like_bind; [apply lc_step|]. intros r. apply like_bind; [exact IH|]. intros rs. apply like_ret.
  Qed.
End Clients.

(** Proxies. *)
Definition both_shared {W1 W2} (R : W1 -> W2 -> Prop) (s1 : pst (W := W1)) (s2 : pst (W := W2)) : Prop :=
  ps_max s2 = ps_max s1 /\ ps_prox s2 = ps_prox s1 /\ ps_tab s2 = ps_tab s1 /\ R (ps_w s1) (ps_w s2).

Section Proxies.
  Context {W1 W2 : Type} (R : W1 -> W2 -> Prop) (A1 : Allocator W1) (A2 : Allocator W2) (HA : alike R A1 A2) (dbg : bool)
    (reset1 : bool -> M W1 unit) (reset2 : bool -> M W2 unit) (Hreset : forall keep, like R (reset1 keep) (reset2 keep)) (smax psmax nmax : Z).
  Notation lp := (like (both_shared R)).

  Lemma lp_proxy {B} k (m1 : M (cst (AW (W := W1))) B) m2 : like (both_clients (both_arenas R)) m1 m2 -> lp (on_proxy k m1) (on_proxy k m2).
  Proof.
    intros H s1 s2 (E1 & E2 & E3 & HR). unfold on_proxy. rewrite E2. destruct (get k (ps_prox s1)) as [p|]; [|exact I].
    specialize (H (mkCst (px_tab p) (px_arena p, ps_w s1)) (mkCst (px_tab p) (px_arena p, ps_w s2))).
    assert (Hc : both_clients (both_arenas R) (mkCst (px_tab p) (px_arena p, ps_w s1)) (mkCst (px_tab p) (px_arena p, ps_w s2))) by (repeat split; exact HR).
    specialize (H Hc).
    destruct (m1 _) as [b c|c| |]; [destruct H as (c' & -> & H')|destruct H as (c' & -> & H')|rewrite H; reflexivity|exact I];
      (eexists; split; [reflexivity|]; destruct H' as (H1 & H2 & H3); unfold put; repeat split; cbn; rewrite ?E1, ?E2, ?E3, ?H1, ?H2; auto).
  Qed.
  Lemma lp_shared {B} (m1 : M (cst W1) B) m2 : like (both_clients R) m1 m2 -> lp (on_shared m1) (on_shared m2).
  Proof.
    intros H s1 s2 (E1 & E2 & E3 & HR). unfold on_shared. rewrite E3.
    assert (Hc : both_clients R (mkCst (ps_tab s1) (ps_w s1)) (mkCst (ps_tab s1) (ps_w s2))) by (repeat split; exact HR).
    specialize (H _ _ Hc).
    destruct (m1 _) as [b c|c| |]; [destruct H as (c' & -> & H')|destruct H as (c' & -> & H')|rewrite H; reflexivity|exact I];
      (eexists; split; [reflexivity|]; destruct H' as (H1 & H2); repeat split; cbn; rewrite ?E1, ?E2, ?H1; auto).
  Qed.
  Lemma lp_local : lp p_local p_local.
  Proof. intros s1 s2 (E1 & E2 & E3 & HR). eexists. split; [reflexivity|]. repeat split; cbn; rewrite ?E1, ?E2, ?E3; auto. Qed.
  Lemma lp_update n : lp (p_update n) (p_update n).
  Proof. intros s1 s2 (E1 & E2 & E3 & HR). eexists. split; [reflexivity|]. repeat split; cbn; rewrite ?E1, ?E2, ?E3; auto. Qed.
  Lemma lp_reset k : lp (p_reset A1 k) (p_reset A2 k).
  Proof.
    unfold p_reset. apply like_bind; [apply lp_proxy, lc_call, la_last; exact HA|]. intros n. apply like_bind; [apply lp_update|]. intros _.
    apply lp_proxy, lc_call, la_reset_leak. exact HA.
  Qed.
  Lemma lp_drop k : lp (p_drop A1 dbg k) (p_drop A2 dbg k).
  Proof.
    unfold p_drop. apply like_bind; [apply lp_proxy, lc_call, la_last; exact HA|]. intros n. apply like_bind; [apply lp_update|]. intros _.
    apply like_bind; [apply lp_proxy, lc_call, la_reset_leak; exact HA|]. intros _. apply like_bind; [apply lp_proxy, lc_call, la_assert_root|]. intros _.
    intros s1 s2 (E1 & E2 & E3 & HR). eexists. split; [reflexivity|]. repeat split; cbn; rewrite ?E1, ?E2, ?E3; auto.
  Qed.
  Lemma lp_caught {B} (m1 : M (pst (W := W1)) B) m2 res : lp m1 m2 -> lp (caught m1 res) (caught m2 res).
  Proof.
    intros H s1 s2 Hs. unfold caught. specialize (H s1 s2 Hs).
    destruct (m1 s1) as [b s|s| |]; [destruct H as (s' & -> & H'); eauto|destruct H as (s' & -> & H'); eauto|rewrite H; reflexivity|exact I].
  Qed.
  Lemma lp_step o : lp (pstep A1 dbg reset1 smax psmax nmax o) (pstep A2 dbg reset2 smax psmax nmax o).
  Proof.
    intros s1 s2 H. unfold pstep. rewrite (proj1 (proj2 H)). revert s1 s2 H. 
    assert (X : forall t, lp (pstep_at A1 dbg reset1 smax psmax nmax o t) (pstep_at A2 dbg reset2 smax psmax nmax o t)); [|intros s1 s2 H; exact (X _ s1 s2 H)].
    intros t. destruct o as [|k|k|n|[k|] o]; cbn [pstep_at].
    - apply lp_caught, lp_local.
    - destruct (alive k t); [apply lp_caught, lp_drop|apply like_ret].
    - destruct (alive k t); [apply lp_caught, lp_reset|apply like_ret].
    - destruct (_ && _); [apply lp_caught, lp_update|apply like_ret].
    - destruct (alive k t); [|apply like_ret]. apply lp_caught, lp_proxy. apply lc_step; [apply blink_alike; exact HA|]. intros _. apply la_reset. exact HA.
    - match goal with |- like _ (if ?b then _ else _) _ => destruct b end; [|apply like_ret]. apply lp_caught, lp_shared, lc_step; [exact HA|exact Hreset].
  Qed.
  Lemma lp_run os : lp (prun A1 dbg reset1 smax psmax nmax os) (prun A2 dbg reset2 smax psmax nmax os).
  Proof.
    induction os as [|o os IH]; cbn [prun]; [apply like_ret|]. apply like_bind; [apply lp_step|]. intros r. apply like_bind; [exact IH|]. intros rs. apply like_ret.
  Qed.
End Proxies.

(** The global allocators. *)
Definition both_globals {W1 W2} (R : W1 -> W2 -> Prop) (s1 : gst (W := W1)) (s2 : gst (W := W2)) : Prop :=
  g_on s2 = g_on s1 /\ g_count s2 = g_count s1 /\ both_arenas R (g_aw s1) (g_aw s2).
Definition both_users {W1 W2} (R : W1 -> W2 -> Prop) (c1 : gcst (W := W1)) (c2 : gcst (W := W2)) : Prop :=
  gc_tab c2 = gc_tab c1 /\ both_globals R (gc_st c1) (gc_st c2).

Section Globals.
  Context {W1 W2 : Type} (R : W1 -> W2 -> Prop) (A1 : Allocator W1) (A2 : Allocator W2) (HA : alike R A1 A2) (dbg sync : bool) (smax : Z) (may : Z -> Z -> bool).
  Notation la := (like (both_arenas R)).
  Notation lg := (like (both_globals R)).
  Notation lu := (like (both_users R)).

  Lemma la_st_allocate on l : la (st_allocate A1 dbg on l) (st_allocate A2 dbg on l).
  Proof. unfold st_allocate. destruct on; [apply la_allocate|apply la_inner]; apply HA. Qed.
  Lemma la_st_zeroed on l : la (st_allocate_zeroed A1 dbg on l) (st_allocate_zeroed A2 dbg on l).
  Proof. unfold st_allocate_zeroed. destruct on; [apply lk_zeroed, blink_alike|apply la_inner, lk_zeroed]; exact HA. Qed.
  Lemma la_st_resize on p old new : la (st_resize A1 dbg on p old new) (st_resize A2 dbg on p old new).
  Proof. unfold st_resize. destruct on; [apply la_resize; exact HA|apply la_inner]. destruct (_ <=? _); apply HA. Qed.
  Lemma la_st_deallocate on p l : la (st_deallocate A1 on p l) (st_deallocate A2 on p l).
  Proof. unfold st_deallocate. destruct on; [apply la_dealloc|apply la_inner]; apply HA. Qed.

  Lemma lg_aw {B} (m1 : M (AW (W := W1)) B) m2 : la m1 m2 -> lg (on_aw m1) (on_aw m2).
  Proof.
    intros H s1 s2 (E1 & E2 & HR). unfold on_aw. specialize (H _ _ HR). rewrite E1, E2.
    destruct (m1 (g_aw s1)) as [b w|w| |]; [destruct H as (w' & -> & H')|destruct H as (w' & -> & H')|rewrite H; reflexivity|exact I];
      (eexists; split; [reflexivity|]; repeat split; apply H').
  Qed.
  Lemma lg_up : lg (count_up dbg sync) (count_up dbg sync).
  Proof.
    intros s1 s2 H. pose proof H as (E1 & E2 & HR). unfold count_up. rewrite E1, E2. destruct (dbg && g_on s1); [|exists s2; auto].
    destruct sync; [eexists; split; [reflexivity|]; repeat split; apply HR|].
    destruct (_ <=? _); [eexists; split; [reflexivity|]; repeat split; apply HR|exists s2; auto].
  Qed.
  Lemma lg_down : lg (count_down dbg sync) (count_down dbg sync).
  Proof.
    intros s1 s2 H. pose proof H as (E1 & E2 & HR). unfold count_down. rewrite E1, E2. destruct (dbg && g_on s1); [|exists s2; auto].
    eexists; split; [reflexivity|]; repeat split; apply HR.
  Qed.
  Lemma lg_on {B} (f1 : bool -> M (gst (W := W1)) B) f2 : (forall on, lg (f1 on) (f2 on)) -> lg (fun s => f1 (g_on s) s) (fun s => f2 (g_on s) s).
  Proof. intros H s1 s2 Hs. rewrite (proj1 Hs). apply H. exact Hs. Qed.
  Lemma lg_alloc z l : lg (g_alloc A1 dbg sync z l) (g_alloc A2 dbg sync z l).
  Proof.
    unfold g_alloc. apply (lg_on (fun on => r <- on_aw (if z then st_allocate_zeroed A1 dbg on l else st_allocate A1 dbg on l) ;; _)
      (fun on => r <- on_aw (if z then st_allocate_zeroed A2 dbg on l else st_allocate A2 dbg on l) ;; _)).
    intros on. apply like_bind; [apply lg_aw; destruct z; [apply la_st_zeroed|apply la_st_allocate]|]. intros [b|]; [|apply like_ret].
    apply like_bind; [apply lg_up|]. intros _. apply like_ret.
  Qed.
  Lemma lg_dealloc p l : lg (g_dealloc A1 dbg sync p l) (g_dealloc A2 dbg sync p l).
  Proof.
    unfold g_dealloc. apply (lg_on (fun on => on_aw (st_deallocate A1 on p l) ;;; count_down dbg sync) (fun on => on_aw (st_deallocate A2 on p l) ;;; count_down dbg sync)).
    intros on. apply like_bind; [apply lg_aw, la_st_deallocate|]. intros _. apply lg_down.
  Qed.
  Lemma lg_realloc p l n : lg (g_realloc A1 dbg p l n) (g_realloc A2 dbg p l n).
  Proof.
    unfold g_realloc. cbv zeta. destruct (layout_okb _); [|apply like_ret].
    apply (lg_on (fun on => on_aw (if p =? 0 then st_allocate A1 dbg on _ else st_resize A1 dbg on p l _)) (fun on => on_aw (if p =? 0 then st_allocate A2 dbg on _ else st_resize A2 dbg on p l _))).
    intros on. apply lg_aw. destruct (_ =? _); [apply la_st_allocate|apply la_st_resize].
  Qed.
  Lemma lg_reset : lg (g_reset A1 dbg) (g_reset A2 dbg).
  Proof.
    intros s1 s2 H. pose proof H as (E1 & E2 & HR). unfold g_reset. rewrite E2. destruct (dbg && _); [exists s2; auto|].
    exact (lg_aw _ _ (la_reset R A1 A2 HA true) s1 s2 H).
  Qed.
  Lemma lg_blink : lg g_blink_mode g_blink_mode.
  Proof. intros s1 s2 (E1 & E2 & HR). eexists; split; [reflexivity|]; repeat split; cbn; rewrite ?E2; auto; apply HR. Qed.
  Lemma lg_direct : lg (g_direct_mode A1 dbg) (g_direct_mode A2 dbg).
  Proof.
    unfold g_direct_mode. apply like_bind; [apply lg_reset|]. intros _ s1 s2 (E1 & E2 & HR). eexists; split; [reflexivity|]; repeat split; cbn; rewrite ?E2; auto; apply HR.
  Qed.
  Lemma lu_call {B} (m1 : M (gst (W := W1)) B) m2 f res : lg m1 m2 -> lu (gcall m1 f res) (gcall m2 f res).
  Proof.
    intros H [t s1] [t2 s2] [E HR]. cbn [gc_tab gc_st] in *. subst t2. unfold gcall. cbn [gc_tab gc_st]. specialize (H s1 s2 HR).
    destruct (m1 s1) as [b w|w| |]; [destruct H as (w' & -> & H')|destruct H as (w' & -> & H')|rewrite H; reflexivity|exact I];
      (eexists; split; [reflexivity|]; split; [reflexivity|exact H']).
  Qed.
  Lemma lu_step_at o on t : lu (gstep_at A1 dbg sync smax may o on t) (gstep_at A2 dbg sync smax may o on t).
  Proof.
    destruct o as [l z|h|h n|h off cs| | |]; cbn [gstep_at].
    - destruct (_ && _); [apply lu_call, lg_alloc|apply like_ret].
    - destruct (get h t) as [[bk u]|]; [|apply like_ret]. destruct (Bool.eqb _ _); [apply lu_call, lg_dealloc|apply like_ret].
    - destruct (get h t) as [[bk u]|]; [|apply like_ret]. destruct (_ && _); [apply lu_call, lg_realloc|apply like_ret].
    - destruct (get h t) as [[bk u]|]; [|apply like_ret]. destruct (_ && _); [|apply like_ret].
      intros [t1 s1] [t2 s2] (E & E1 & E2 & E3 & HR). cbn [gc_tab gc_st] in *. subst t2.
      pose proof (ak_write _ _ _ HA (u_ptr u + off) cs _ _ HR) as H. unfold mwrite in H. destruct H as (w' & E' & H'). injection E' as E'.
      eexists. split; [reflexivity|]. unfold both_users, both_globals, both_arenas. cbn. rewrite E1, E2, E3, E'. auto.
    - apply lu_call, lg_reset.
    - apply lu_call, lg_blink.
    - apply lu_call, lg_direct.
  Qed.
  Lemma lu_step o : lu (gstep A1 dbg sync smax may o) (gstep A2 dbg sync smax may o).
  Proof. intros c1 c2 H. unfold gstep. rewrite (proj1 H), (proj1 (proj2 H)). apply lu_step_at. exact H. Qed.
  Lemma lu_run os : lu (grun A1 dbg sync smax may os) (grun A2 dbg sync smax may os).
  Proof.
    induction os as [|o os IH]; cbn [grun]; [apply like_ret|]. apply like_bind; [apply lu_step|]. intros r. apply like_bind; [exact IH|]. intros rs. apply like_ret.
  Qed.
End Globals.
