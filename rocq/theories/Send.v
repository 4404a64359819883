(** Moving a [Blink] from thread to thread: src/blink.rs 210-213 ([unsafe impl Send for
    Blink]) and 1382-1428 ([SendBlink]).

    The [Blink] is used by one thread at a time, so a program is cut into the parts that the
    threads run one after the other.  The log (Blink.v) tells which destructors ran in which
    part.  A type that is not [Send] (the bound of [put] is [T: 'static]) must be dropped by
    the thread that put it in. *)
From Verif Require Import Base BaseFacts Alloc AllocFacts Arena BlinkAlloc History HistoryFacts Setup SetupFacts Concrete
  Blink BlinkInv BlinkReset BlinkIter BlinkMain BlinkEnv BlinkLog BlinkYield BlinkProps BlinkFate BlinkDemo.

(** The events from state [s] to state [s']. *)
Definition since {W} (s s' : bl W) : list bev := skipn (length (bl_log s)) (bl_log s').

(** Each thread runs its program and passes the [Blink] on; the events of each thread.
    [send]: what is done to pass it on, on the side of the sender. *)
Fixpoint relay (E : env) (send : M (bl (e_W E)) unit) (progs : list (list bop)) (s : bl (e_W E))
  : option (list (list bev) * bl (e_W E)) :=
  match progs with
  | [] => Some ([], s)
  | os :: progs' =>
      match erun E os s with
      | ORet _ s1 =>
          match send s1 with
          | ORet _ s2 =>
              match relay E send progs' s2 with
              | Some (evs, s3) => Some (since s s2 :: evs, s3)
              | None => None
              end
          | _ => None
          end
      | _ => None
      end
  end.

(** src/blink.rs 213: [Blink] is [Send], so nothing need be done. *)
Definition as_is {E : env} : M (bl (e_W E)) unit := ret tt.
(** src/blink.rs 1418-1421 [SendBlink::new], 1425-1427 [SendBlink::into_inner].  If the
    [reset] panics there is no [SendBlink]. *)
Definition send_blink {E : env} : M (bl (e_W E)) unit := erun1 E BReset.

Lemma skipn_app_exact {T} (a b : list T) : skipn (length a) (a ++ b) = b.
Proof. rewrite skipn_app, skipn_all, Nat.sub_diag. reflexivity. Qed.

Lemma map_none_repeat {T S} (t : list T) : map (fun _ => @None S) t = repeat None (length t).
Proof. induction t; cbn; congruence. Qed.

Lemma especs_drops bomb ds : forall st, especs bomb st (map edrop ds) = (st, []).
Proof. induction ds as [|d ds IH]; intros st; [reflexivity|]. cbn [map especs]. destruct d as [i v]. cbn. rewrite IH. reflexivity. Qed.

Lemma live_entries_repeat n : live_entries (repeat None n) = [].
Proof. induction n; cbn; auto. Qed.

Lemma drop_n_app i a b : drop_n i (a ++ b) = (drop_n i a + drop_n i b)%nat.
Proof. induction a as [|e a IH]; [reflexivity|]. cbn [app drop_n]. destruct e; try exact IH. rewrite IH. lia. Qed.
Lemma new_n_app i a b : new_n i (a ++ b) = (new_n i a + new_n i b)%nat.
Proof. induction a as [|e a IH]; [reflexivity|]. cbn [app new_n]. destruct e as [reg ? ?| | | | | | | |]; [destruct reg|..]; try exact IH. rewrite IH. lia. Qed.

Section Relay.
  Variable E : env.
  Hypothesis HE : env_ok E.

  Lemma erun_app a : forall b s, erun E (a ++ b) s = match erun E a s with ORet _ s1 => erun E b s1 | OPanic s1 => OPanic s1 | OAbort => OAbort | OUB => OUB end.
  Proof.
    unfold erun. induction a as [|o a IH]; intros b s; [reflexivity|]. cbn [app bmain]. unfold bind.
    destruct (caught _ s) as [[] s1| | |]; auto.
  Qed.

  Lemma arrives_app fr w os s os' s' : arrives E fr w os s -> forallb (sound (e_exact E)) os' = true -> erun E os' s = ORet tt s' ->
    arrives E fr w (os ++ os') s'.
  Proof.
    intros (Hr & Hs & He) Ho H. split; [exact Hr|]. split; [rewrite forallb_app, Hs, Ho; reflexivity|]. rewrite erun_app, He. exact H.
  Qed.

  (** A reset that returns leaves nothing to be dropped. *)
  Lemma handed_over fr w os s s' : arrives E fr w os s -> erun1 E BReset s = ORet tt s' ->
    arrives E fr w (os ++ [BReset]) s' /\ (exists d, bl_log s' = bl_log s ++ d) /\
    exists n, fst (especs (e_bomb E) [] (bl_log s')) = repeat None n.
  Proof.
    intros Ha He. split; [apply (goes_on E _ _ _ s); auto|].
    pose proof (reset_fate E HE _ _ _ _ BReset Ha (or_introl eq_refl)) as H. rewrite He in H. destruct H as [(L & _) _].
    split; [eauto|]. rewrite L, especs_app. cbn [fst especs espec].
    rewrite especs_drops. cbn [fst]. rewrite map_none_repeat. eauto.
  Qed.

  Lemma part_drops fr w os os' s s' d n : arrives E fr w os s -> arrives E fr w os' s' -> bl_log s' = bl_log s ++ d ->
    fst (especs (e_bomb E) [] (bl_log s)) = repeat None n ->
    drops_of d = snd (especs (e_bomb E) (repeat None n) d) /\ forall i, (drop_n i d <= new_n i d)%nat.
  Proof.
    intros Ha Ha' L Hn. assert (H : drops_of d = snd (especs (e_bomb E) (repeat None n) d)).
    { pose proof (all_drops E HE _ _ _ _ Ha) as H1. pose proof (all_drops E HE _ _ _ _ Ha') as H2.
      rewrite L, drops_of_app, especs_app, Hn in H2. cbn [snd] in H2. rewrite H1 in H2. apply app_inv_head in H2. symmetry. exact H2. }
    split; [exact H|]. intros i. pose proof (spec_count (e_bomb E) i d (repeat None n)) as X. rewrite <- H, drops_count, live_entries_repeat in X.
    cbn in X. lia.
  Qed.

  (** The destructors a thread runs are those that a list of its own values calls for. *)
  Definition own_values (d : list bev) : Prop :=
    (exists n, drops_of d = snd (especs (e_bomb E) (repeat None n) d)) /\ forall i, (drop_n i d <= new_n i d)%nat.

  Lemma relay_own fr w progs : forall os s evs s',
    arrives E fr w os s -> (exists n, fst (especs (e_bomb E) [] (bl_log s)) = repeat None n) ->
    forallb (forallb (sound (e_exact E))) progs = true -> relay E send_blink progs s = Some (evs, s') -> Forall own_values evs.
  Proof.
    induction progs as [|p progs IH]; intros os s evs s' Ha [n Hn] Hs; cbn [relay].
    - intros X. injection X as <- <-. constructor.
    - cbn [forallb] in Hs. apply andb_true_iff in Hs. destruct Hs as [Hp Hs].
      destruct (erun E p s) as [[] s1| | |] eqn:E1; try discriminate.
      destruct (send_blink s1) as [[] s2| | |] eqn:E2; try discriminate.
      destruct (relay E send_blink progs s2) as [[evs' s3]|] eqn:E3; [|discriminate]. intros X. injection X as <- <-.
      pose proof (arrives_app _ _ _ _ _ _ Ha Hp E1) as Ha1.
      destruct (handed_over _ _ _ _ _ Ha1 E2) as (Ha2 & (d2 & L2) & Hn2).
      pose proof Ha as ((us & _ & HF) & _ & _).
      destruct (arrived E HE _ _ _ _ Ha) as [B _].
      pose proof (erun_safe E HE fr p s Hp B HF) as S. unfold safe in S. rewrite E1 in S. destruct S as [_ (_ & d1 & L1)].
      assert (L : bl_log s2 = bl_log s ++ (d1 ++ d2)) by (rewrite L2, L1, app_assoc; reflexivity).
      constructor; [|apply (IH _ _ _ _ Ha2 Hn2 Hs E3)].
      unfold since. rewrite L, skipn_app_exact. destruct (part_drops _ _ _ _ _ _ _ _ Ha Ha2 L Hn) as [H1 H2].
      split; [exists n; exact H1|exact H2].
  Qed.

  Theorem send_blink_own fr w progs evs s : ready E fr w -> forallb (forallb (sound (e_exact E))) progs = true ->
    relay E send_blink progs (bl_new w) = Some (evs, s) -> Forall own_values evs.
  Proof.
    intros Hr Hs. apply (relay_own fr w progs [] (bl_new w)); auto.
    - split; [exact Hr|]. split; reflexivity.
    - exists O. reflexivity.
  Qed.

  (** Without panicking destructors every value a thread puts in is dropped by it. *)
  Theorem send_blink_all fr w progs evs s : (forall id v, e_bomb E id v = false) -> ready E fr w ->
    forallb (forallb (sound (e_exact E))) progs = true -> relay E send_blink progs (bl_new w) = Some (evs, s) ->
    Forall (fun d => forall i, drop_n i d = new_n i d) evs.
  Proof.
    intros Hb Hr Hs.
    assert (Hgen : forall progs os s0 evs s', forallb (forallb (sound (e_exact E))) progs = true ->
      arrives E fr w os s0 -> (forall i, drop_n i (bl_log s0) = new_n i (bl_log s0)) ->
      relay E send_blink progs s0 = Some (evs, s') -> Forall (fun d => forall i, drop_n i d = new_n i d) evs).
    { clear progs evs s Hs. induction progs as [|p progs IH]; intros os s evs s' Hs Ha Hn; cbn [relay].
      - intros X. injection X as <- <-. constructor.
      - cbn [forallb] in Hs. apply andb_true_iff in Hs. destruct Hs as [Hp Hs].
        destruct (erun E p s) as [[] s1| | |] eqn:E1; try discriminate.
        destruct (send_blink s1) as [[] s2| | |] eqn:E2; try discriminate.
        destruct (relay E send_blink progs s2) as [[evs' s3]|] eqn:E3; [|discriminate]. intros X. injection X as <- <-.
        pose proof (arrives_app _ _ _ _ _ _ Ha Hp E1) as Ha1.
        destruct (handed_over _ _ _ _ _ Ha1 E2) as (Ha2 & (d2 & L2) & _).
        pose proof Ha as ((us & _ & HF) & _ & _).
        destruct (arrived E HE _ _ _ _ Ha) as [B _].
        pose proof (erun_safe E HE fr p s Hp B HF) as S. unfold safe in S. rewrite E1 in S. destruct S as [_ (_ & d1 & L1)].
        assert (L : bl_log s2 = bl_log s ++ (d1 ++ d2)) by (rewrite L2, L1, app_assoc; reflexivity).
        assert (Hn2 : forall i, drop_n i (bl_log s2) = new_n i (bl_log s2)).
        { intros i. apply (exactly_once E HE fr w _ s2 i Ha2 Hb).
          pose proof (reset_fate E HE _ _ _ _ BReset Ha1 (or_introl eq_refl)) as H. unfold send_blink in E2. rewrite E2 in H. apply H. }
        constructor; [|apply (IH _ _ _ _ Hs Ha2 Hn2 E3)].
        unfold since. rewrite L, skipn_app_exact. intros i. specialize (Hn2 i). specialize (Hn i). rewrite L in Hn2.
        rewrite drop_n_app, new_n_app in Hn2. lia. }
    apply (Hgen progs [] (bl_new w)); auto. split; [exact Hr|]. split; reflexivity.
  Qed.
End Relay.

(** What each thread of a relay sees, as far as the log goes. *)
Definition seen {E : env} (r : option (list (list bev) * bl (e_W E))) : option (list (list bev)) :=
  match r with Some (evs, _) => Some evs | None => None end.

Lemma seen_relay {E : env} (r : option (list (list bev) * bl (e_W E))) evs : seen r = Some evs -> exists s, r = Some (evs, s).
Proof. destruct r as [[evs' s]|]; cbn; intros X; [injection X as <-; eauto|discriminate]. Qed.

(** Passed on as it is, a [Blink] drops values of one thread on another. *)
Lemma send_marker_refuted : exists E w progs evs s,
  env_ok E /\ ready E [] w /\ forallb (forallb (sound (e_exact E))) progs = true /\
  relay E as_is progs (bl_new w) = Some (evs, s) /\
  exists d i, In d evs /\ (new_n i d < drop_n i d)%nat.
Proof.
  destruct (seen_relay (relay Eo as_is [[put dropper 5]; [BReset]] (bl_new w0)) _ ltac:(vm_compute; reflexivity)) as [s Hs].
  exists Eo, w0. do 2 eexists. exists s. split; [apply own_env_ok|]. split; [apply fresh_ready|]. split; [|split; [exact Hs|]].
  - reflexivity.
  - do 2 eexists. split; [right; left; reflexivity|]. instantiate (1 := 2). cbn. lia.
Qed.

(** The same with [SendBlink]: the first thread drops its value. *)
Lemma send_blink_run : exists s, relay Eo send_blink [[put dropper 5]; [put dropper 6; put dropper 7]; [BReset]] (bl_new w0) =
  Some ([[ENew true 2 [Some 5]; EReset; EDrop 2 5]; [ENew true 2 [Some 6]; ENew true 2 [Some 7]; EReset; EDrop 2 7; EDrop 2 6]; [EReset; EReset]], s).
Proof. apply seen_relay. vm_compute. reflexivity. Qed.
