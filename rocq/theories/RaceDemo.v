(** Concrete traces, used by the examples beside the theorems about data races. *)
From Verif Require Import Base Alloc Arena BlinkAlloc History Setup Concrete Conc ConcFacts ConcSteps ConcProps ConcDemo
  Race RaceFacts RaceSteps.

Definition ctr (su : setup) (n : nat) (sched : list choice) : list action :=
  match ctrace su sched (cstart su n) with ORet tr _ => tr | _ => [] end.
Lemma ctr_reached su n sched : setup_ok su ->
  exists g, ctrace su sched (cstart su n) = ORet (ctr su n sched) g.
Proof.
  intros Hok. destruct (crun_total su Hok n sched) as (es & g & E & _).
  destruct (ctrace_runs su sched _ _ _ E) as (tr & Et). exists g. unfold ctr. rewrite Et. reflexivity.
Qed.

(** The same actions without those of the lock. *)
Definition unlocked (tr : list action) : list action :=
  filter (fun a => match a with RLock _ | RUnlock _ | WLock _ | WUnlock _ => false | _ => true end) tr.
(** ... without the hand-over of blocks by clients. *)
Definition unowned (tr : list action) : list action :=
  filter (fun a => match a with Take _ _ | Give _ _ => false | _ => true end) tr.
(** The write lock replaced by the read lock. *)
Definition read_only (tr : list action) : list action :=
  map (fun a => match a with WLock t => RLock t | WUnlock t => RUnlock t | a => a end) tr.

(** Two conflicting accesses in a trace are not ordered when a set of positions that contains
    the first and not the second is closed under [linked]. *)
Fixpoint reach (tr : list action) (seen : list action) : list bool :=
  match tr with
  | [] => []
  | b :: tr' =>
      let r := existsb (fun a => linked a b) seen in
      r :: reach tr' (if r then b :: seen else seen)
  end.
(** Position [j] can be reached from [i]. *)
Definition ordered (tr : list action) (i j : nat) : bool :=
  match nth_error tr i with
  | Some a => nth (j - i - 1) (reach (skipn (S i) tr) [a]) false
  | None => false
  end.

Lemma reach_sound tr : forall seen k b, nth_error tr k = Some b ->
  (exists a, In a seen /\ linked a b = true) \/
  (exists i a, (i < k)%nat /\ nth_error tr i = Some a /\ nth i (reach tr seen) false = true /\ linked a b = true) ->
  nth k (reach tr seen) false = true.
Proof.
  induction tr as [|c tr IH]; intros seen k b Hk H; [destruct k; discriminate|]. cbn [reach].
  destruct k as [|k]; cbn [nth_error nth] in *.
  - inversion Hk; subst c. destruct H as [(a & Ha & L)|(i & a & Hi & _)]; [|lia].
    apply existsb_exists. eauto.
  - apply IH with (b := b); [exact Hk|]. destruct H as [(a & Ha & L)|(i & a & Hi & Hn & Hr & L)].
    + left. exists a. split; [|exact L]. destruct (existsb _ seen); [right|]; exact Ha.
    + destruct i as [|i]; cbn [nth_error nth] in *.
      * inversion Hn; subst c. left. exists a. cbn [reach nth] in Hr. rewrite Hr. split; [left; reflexivity|exact L].
      * right. exists i, a. cbn [reach nth] in Hr. repeat split; auto. lia.
Qed.

Lemma hb_lt tr i j : hb tr i j -> (i < j)%nat /\ (exists a, nth_error tr i = Some a) /\ (exists b, nth_error tr j = Some b).
Proof. induction 1 as [i j a b L Ha Hb _|i j k _ (L1 & A1 & _) _ (L2 & _ & B2)]; [eauto|]. repeat split; auto. lia. Qed.

Lemma skipn_nth {T} n (l : list T) k : nth_error (skipn n l) k = nth_error l (n + k)%nat.
Proof.
  revert l. induction n as [|n IH]; intros l; [reflexivity|]. destruct l as [|x l]; [destruct k; reflexivity|]. cbn. apply IH.
Qed.

Lemma hb_step tr i : forall j k, hb tr j k -> (j = i \/ (i < j)%nat /\ ordered tr i j = true) -> (i < k)%nat /\ ordered tr i k = true.
Proof.
  intros j k H. induction H as [j k a b L Ha Hb Hl|j k l H1 IH1 H2 IH2]; intros Hj.
  2: { apply IH2. right. apply IH1. exact Hj. }
  assert (Lk : (i < k)%nat) by (destruct Hj as [->|[Hj _]]; lia). split; [exact Lk|].
  unfold ordered in *. destruct (nth_error tr i) as [a0|] eqn:Hi.
  - assert (Hb' : nth_error (skipn (S i) tr) (k - i - 1) = Some b).
    { rewrite skipn_nth. replace (S i + (k - i - 1))%nat with k by lia. exact Hb. }
    apply (reach_sound _ _ _ b Hb'). destruct Hj as [->|[Hij Hj]].
    + left. exists a. split; [left; congruence|exact Hl].
    + right. exists (j - i - 1)%nat, a. split; [lia|]. split; [|split; [exact Hj|exact Hl]].
      rewrite skipn_nth. replace (S i + (j - i - 1))%nat with j by lia. exact Ha.
  - destruct Hj as [->|[_ Hj]]; [congruence|discriminate].
Qed.

Lemma unordered_races tr i j a b : (i < j)%nat -> nth_error tr i = Some a -> nth_error tr j = Some b ->
  conflict a b = true -> ordered tr i j = false -> ~ race_free tr.
Proof.
  intros L Ha Hb Hc Ho Hf. pose proof (Hf i j a b L Ha Hb Hc) as H. apply (hb_step tr i) in H; [|left; reflexivity].
  destruct H as [_ H]. congruence.
Qed.
