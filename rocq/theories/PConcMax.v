(** The size recorded for new proxies (src/sync.rs [max_local_alloc]) only grows. *)
From Verif Require Import Base Alloc Arena BlinkAlloc History Setup Proxy Conc ConcProps PConc.

(** The capacity of the last chunk of proxy [k], read from its header. *)
Definition rlast (s : rst) (k : nat) : option Z :=
  match get k (r_prox s) with
  | Some p =>
      match ar_root (px_arena p) with
      | Some r => match load (gmem (r_g s)) (r + 8) 8 with Some e => Some (e - (r + 32)) | None => None end
      | None => None
      end
  | None => None
  end.

Section Max.
  Variable su : setup.
  Variable psmax nmax : Z.

  Definition covers (z : Z) (es : list revent) : Prop := forall v r, In (RP (PUpdate v) r) es -> v <= z.
  Definition rises (s : rst) : list revent -> rst -> Prop := fun es s' => r_max s <= r_max s' /\ covers (r_max s') es.

  Lemma covers_shared z es : covers z (map RO es).
  Proof. intros v r H. apply in_map_iff in H. destruct H as (e & E & _). discriminate E. Qed.
  Lemma on_g_max {B} (x : M gst B) s b s' : on_g x s = ORet b s' -> r_max s' = r_max s.
  Proof. unfold on_g. destruct (x (r_g s)) as [b' g|g| |]; intros H; try discriminate H. inversion H; subst. reflexivity. Qed.

  Lemma settle_max k o out s es s' : settle su k o out s = ORet es s' -> rises s es s'.
  Proof.
    unfold settle, bind, put_mem, put_prox, ret, ub. destruct out as [r c|c| |]; intros H; try discriminate H;
      inversion H; subst; clear H; (split; [cbn [r_max]; lia|]);
      intros v x [E|[]]; discriminate E.
  Qed.
  Lemma leave_max keep k s es s' : leave_step su keep k s s = ORet es s' -> rises s es s'.
  Proof.
    unfold leave_step. intros H. destruct (get k (r_prox s)) as [p|].
    2: { inversion H; subst. split; [lia|intros v r []]. }
    destruct (in_call k s). { inversion H; subst. split; [lia|intros v r []]. }
    destruct (leave su keep p (gmem (r_g s))) as [z aw|aw| |]; try discriminate H.
    unfold bind, put_max, put_mem, put_prox, ret in H. inversion H; subst; clear H.
    split; [cbn [r_max]; lia|]. intros v r [E|[]]. destruct keep; discriminate E.
  Qed.
  Lemma thread_max t c s es s' : thread_step su t c s s = ORet es s' -> rises s es s'.
  Proof.
    unfold thread_step. intros H. destruct (nth_error (r_job s) t) as [q|].
    2: { inversion H; subst. split; [lia|intros v r []]. }
    unfold bind at 1 in H. destruct (on_g (cstep su c) s) as [e s1|s1| |] eqn:E; try discriminate H.
    apply on_g_max in E. unfold bind, put_job, put_chunk, ret in H. inversion H; subst; clear H.
    split; [cbn [r_max]; lia|apply covers_shared].
  Qed.

  Lemma rstep_max c s es s' : rstep su psmax nmax c s = ORet es s' -> rises s es s'.
  Proof.
    assert (Hnone : rises s [] s) by (split; [lia|intros v r []]).
    assert (Hgo : forall c0, (es0 <- on_g (cstep su c0) ;; ret (map RO es0)) s = ORet es s' -> rises s es s').
    { intros c0 H. unfold bind in H. destruct (on_g (cstep su c0) s) as [e s1|s1| |] eqn:E; try discriminate H.
      apply on_g_max in E. inversion H; subst; clear H. split; [lia|apply covers_shared]. }
    unfold rstep, rstep_at. intros H. destruct c as [t o|t sp|t v|keep|v|t k o|t|k|k|v].
    - match type of H with (if ?b then _ else _) _ = _ => destruct b end; [eauto|inversion H; subst; exact Hnone].
    - apply (thread_max _ _ _ _ _ H).
    - apply (thread_max _ _ _ _ _ H).
    - destruct (forallb is_none (r_prox s)); [eauto|inversion H; subst; exact Hnone].
    - match type of H with (if ?b then _ else _) _ = _ => destruct b end; [|inversion H; subst; exact Hnone].
      unfold bind, put_prox, ret in H. inversion H; subst; clear H. split; [cbn [r_max]; lia|].
      intros x r [E|[]]. discriminate E.
    - destruct (get k (r_prox s)) as [p|]; [|inversion H; subst; exact Hnone].
      match type of H with (if ?b then _ else _) _ = _ => destruct b end; [|inversion H; subst; exact Hnone].
      cbv zeta in H. destruct (asked_of (run_op su psmax o p None (gmem (r_g s)))) as [l|]; [|apply (settle_max _ _ _ _ _ _ H)].
      unfold bind at 1 in H. destruct (on_g (cstep su (Start t (OpAlloc l false))) s) as [e s1|s1| |] eqn:E; try discriminate H.
      apply on_g_max in E. destruct e as [|e0 e]; [discriminate H|].
      unfold bind, put_job, ret in H. inversion H; subst; clear H. split; [cbn [r_max]; lia|apply (covers_shared _ (e0 :: e))].
    - destruct (nth_error (g_thr (r_g s)) t) as [pc|]; [|inversion H; subst; exact Hnone].
      destruct pc; try (inversion H; subst; exact Hnone).
      destruct (nth_error (r_job s) t) as [q|]; [|inversion H; subst; exact Hnone].
      destruct q as [|k o l|k o l h]; try (inversion H; subst; exact Hnone).
      destruct (get k (r_prox s)) as [p|]; [|discriminate H]. cbv zeta in H.
      match type of H with match ?b with _ => _ end _ = _ => destruct b as [l'|] end; [|discriminate H].
      match type of H with (if ?b then _ else _) _ = _ => destruct b end; [|discriminate H].
      unfold bind at 1, put_job in H. apply settle_max in H. exact H.
    - apply (leave_max _ _ _ _ _ H).
    - apply (leave_max _ _ _ _ _ H).
    - match type of H with (if ?b then _ else _) _ = _ => destruct b end; [|inversion H; subst; exact Hnone].
      unfold bind, put_max, ret in H. inversion H; subst; clear H. split; [cbn [r_max]; lia|].
      intros x r [E|[]]. inversion E; subst. cbn [r_max]. lia.
  Qed.

  Lemma rrun_max cs : forall s es s', rrun su psmax nmax cs s = ORet es s' -> rises s es s'.
  Proof.
    induction cs as [|c cs IH]; intros s es s' H; cbn [rrun] in H.
    - inversion H; subst. split; [lia|intros v r []].
    - unfold bind in H. destruct (rstep su psmax nmax c s) as [e1 s1|s1| |] eqn:E1; try discriminate H.
      destruct (rrun su psmax nmax cs s1) as [e2 s2|s2| |] eqn:E2; try discriminate H.
      inversion H; subst; clear H. destruct (rstep_max _ _ _ _ E1) as [A1 A2]. destruct (IH _ _ _ E2) as [B1 B2].
      split; [lia|]. intros v r Hin. apply in_app_or in Hin. destruct Hin as [Hin|Hin]; [|eauto].
      specialize (A2 _ _ Hin). lia.
  Qed.

  (** What a proxy records when it is reset or dropped. *)
  Lemma leave_records keep k s es s' c : leave_step su keep k s s = ORet es s' -> es <> [] -> rlast s k = Some c -> c <= r_max s'.
  Proof.
    unfold leave_step, rlast. intros H Hne Hc. destruct (get k (r_prox s)) as [p|]; [|discriminate Hc].
    destruct (in_call k s). { inversion H; subst. destruct Hne. reflexivity. }
    destruct (leave su keep p (gmem (r_g s))) as [z aw|aw| |] eqn:El; try discriminate H.
    unfold bind, put_max, put_mem, put_prox, ret in H. inversion H; subst; clear H. cbn [r_max].
    enough (z = c) by lia.
    unfold leave, bind at 1 in El. destruct (last_chunk_size deputy (px_arena p, mkD (gmem (r_g s)) None None)) as [z0 w0|w0| |] eqn:E1;
      try discriminate El.
    assert (Ez : z = z0).
    { unfold bind in El. destruct (arena_reset_leak deputy keep w0) as [u w1|w1| |]; try discriminate El.
      match type of El with match ?b with _ => _ end = _ => destruct b as [u2 w2|w2| |] end; try discriminate El.
      inversion El; subst. reflexivity. }
    subst z0. clear El. unfold last_chunk_size, with_aw in E1. cbn [fst snd] in E1.
    destruct (ar_root (px_arena p)) as [r|]; [|discriminate Hc].
    unfold chunk_cap, bind, mload in E1. cbn [deputy al_mem d_mem] in E1. unfold END in E1.
    destruct (load (gmem (r_g s)) (r + 8) 8) as [e|]; [|discriminate Hc].
    cbn [ret] in E1. inversion E1; subst. inversion Hc; subst. unfold chunk_base, HDR. lia.
  Qed.
  Lemma leaving_records k c s es s' n : (c = RReset k \/ c = RDrop k) -> rstep su psmax nmax c s = ORet es s' -> es <> [] ->
    rlast s k = Some n -> n <= r_max s'.
  Proof. intros [->| ->] H; [exact (leave_records true k s es s' n H)|exact (leave_records false k s es s' n H)]. Qed.
End Max.
