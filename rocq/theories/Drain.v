(** Model of [saturating_drain_iter], src/blink.rs 1452-1480, for iterators of any
    length: counting zero-sized elements. *)
From Verif Require Import Base BaseFacts.

(** An iterator of zero-sized elements: its state, [Iterator::size_hint().0],
    [Iterator::next] and [Iterator::nth] ([None]: nothing is left).  Elements carry
    no information.  Not modelled: panics, and the destructors of the elements
    (C40; Blink.v has both). *)
Record ziter := mkZ {
  z_st : Type;
  z_lower : z_st -> Z;
  z_next : z_st -> option z_st;
  z_nth : Z -> z_st -> option z_st
}.

(** 1452-1480.  [None]: still running after so many rounds. *)
Fixpoint zdrain (I : ziter) (dbg : bool) (fuel : nat) (drained : Z) : M (z_st I) (option Z) :=
  match fuel with
  | O => ret None
  | S fuel' =>
      fun s =>
        let lower := z_lower I s in                               (* 1455 *)
        if lower =? 0 then                                        (* 1456-1462 *)
          match z_next I s with
          | None => ORet (Some drained) s
          | Some s' => (d <- add_usize dbg drained 1 ;; zdrain I dbg fuel' d) s'
          end
        else
          let lower := Z.min lower (USIZE_MAX - drained) in       (* 1464 *)
          (k <- sub_usize dbg lower 1 ;;                          (* 1465 *)
           fun s =>
             match z_nth I k s with
             | None => ORet (Some drained) s                      (* 1466-1470 *)
             | Some s' =>
                 (d <- add_usize dbg drained lower ;;             (* 1471-1473 *)
                  if d =? USIZE_MAX then ret (Some USIZE_MAX)     (* 1475-1478 *)
                  else zdrain I dbg fuel' d) s'
             end) s
  end.

(** [left s]: how many elements are still to come.  The iterator keeps the rules of
    [Iterator], stays at its end, and its hints are true. *)
Definition honest_iter (I : ziter) (left : z_st I -> Z) : Prop :=
  (forall s, 0 <= left s) /\
  (forall s, 0 <= z_lower I s <= Z.min (left s) USIZE_MAX) /\
  (forall s, match z_next I s with Some s' => left s = left s' + 1 | None => left s = 0 end) /\
  (forall k s, 0 <= k -> match z_nth I k s with Some s' => left s = left s' + k + 1 | None => left s <= k end).

Section Drain.
  Variable I : ziter.
  Variable left : z_st I -> Z.
  Hypothesis H : honest_iter I left.
  Variable dbg : bool.

  Lemma zdrain_counts : forall fuel d s, 0 <= d -> d + left s <= USIZE_MAX -> (Z.to_nat (left s) < fuel)%nat ->
    exists s', zdrain I dbg fuel d s = ORet (Some (d + left s)) s'.
  Proof.
    destruct H as (H1 & H2 & H3 & H4). induction fuel as [|fuel IH]; intros d s Hd Hs Hf; [lia|]. cbn [zdrain].
    pose proof (H1 s) as L1. pose proof (H2 s) as L2. destruct (Z.eqb_spec (z_lower I s) 0) as [Ez|Ez].
    - pose proof (H3 s) as N. destruct (z_next I s) as [s'|].
      + pose proof (H1 s'). unfold bind, add_usize. replace (d + 1 <=? USIZE_MAX) with true by lia. unfold ret at 1.
        destruct (IH (d + 1) s') as [s2 E2]; [lia|lia|lia|]. rewrite E2. exists s2. f_equal. f_equal. lia.
      + exists s. rewrite N, Z.add_0_r. reflexivity.
    - cbv zeta. rewrite (Z.min_l (z_lower I s) (USIZE_MAX - d)) by lia. unfold bind at 1, sub_usize.
      replace (1 <=? z_lower I s) with true by lia. unfold ret at 1.
      pose proof (H4 (z_lower I s - 1) s ltac:(lia)) as N. destruct (z_nth I (z_lower I s - 1) s) as [s'|]; [|lia].
      pose proof (H1 s'). unfold bind, add_usize. replace (d + z_lower I s <=? USIZE_MAX) with true by lia. unfold ret at 1.
      destruct (Z.eqb_spec (d + z_lower I s) USIZE_MAX) as [Em|Em].
      + exists s'. unfold ret. f_equal. f_equal. lia.
      + destruct (IH (d + z_lower I s) s') as [s2 E2]; [lia|lia|lia|]. rewrite E2. exists s2. f_equal. f_equal. lia.
  Qed.

  (** With hints that never say 0 before the end, no matter how long it is. *)
  Lemma zdrain_saturates : (forall s, 0 < left s -> 0 < z_lower I s) ->
    forall fuel d s, 0 <= d < USIZE_MAX -> (Z.to_nat (USIZE_MAX - d) < fuel)%nat ->
    exists s', zdrain I dbg fuel d s = ORet (Some (Z.min (d + left s) USIZE_MAX)) s'.
  Proof.
    intros Hp. destruct H as (H1 & H2 & H3 & H4). induction fuel as [|fuel IH]; intros d s Hd Hf; [lia|]. cbn [zdrain].
    pose proof (H1 s) as L1. pose proof (H2 s) as L2. specialize (Hp s) as L3. destruct (Z.eqb_spec (z_lower I s) 0) as [Ez|Ez].
    - pose proof (H3 s) as N. destruct (z_next I s) as [s'|].
      + pose proof (H1 s'). lia.
      + exists s. rewrite N, Z.add_0_r, Z.min_l by lia. reflexivity.
    - cbv zeta. set (lo := Z.min (z_lower I s) (USIZE_MAX - d)). assert (Hlo : 1 <= lo /\ lo <= z_lower I s /\ d + lo <= USIZE_MAX) by (unfold lo; lia).
      unfold bind at 1, sub_usize. replace (1 <=? lo) with true by lia. unfold ret at 1.
      pose proof (H4 (lo - 1) s ltac:(lia)) as N. destruct (z_nth I (lo - 1) s) as [s'|]; [|lia].
      pose proof (H1 s'). unfold bind, add_usize. replace (d + lo <=? USIZE_MAX) with true by lia. unfold ret at 1.
      destruct (Z.eqb_spec (d + lo) USIZE_MAX) as [Em|Em].
      + exists s'. unfold ret. rewrite Z.min_r by lia. reflexivity.
      + destruct (IH (d + lo) s') as [s2 E2]; [lia|lia|]. rewrite E2. exists s2. f_equal. f_equal. lia.
  Qed.
End Drain.

(** An iterator without end, like [repeat(())]. *)
Lemma zdrain_endless I dbg :
  (forall s, 0 < z_lower I s <= USIZE_MAX) -> (forall k s, z_nth I k s <> None) ->
  forall fuel d s, 0 <= d < USIZE_MAX -> (Z.to_nat (USIZE_MAX - d) < fuel)%nat ->
  exists s', zdrain I dbg fuel d s = ORet (Some USIZE_MAX) s'.
Proof.
  intros H1 H2. induction fuel as [|fuel IH]; intros d s Hd Hf; [lia|]. cbn [zdrain].
  specialize (H1 s). destruct (Z.eqb_spec (z_lower I s) 0) as [Ez|Ez]; [lia|]. cbv zeta.
  set (lo := Z.min (z_lower I s) (USIZE_MAX - d)). assert (Hlo : 1 <= lo /\ d + lo <= USIZE_MAX) by (unfold lo; lia).
  unfold bind at 1, sub_usize. replace (1 <=? lo) with true by lia. unfold ret at 1.
  specialize (H2 (lo - 1) s). destruct (z_nth I (lo - 1) s) as [s'|]; [|congruence].
  unfold bind, add_usize. replace (d + lo <=? USIZE_MAX) with true by lia. unfold ret at 1.
  destruct (Z.eqb_spec (d + lo) USIZE_MAX) as [Em|Em]; [exists s'; reflexivity|apply IH; lia].
Qed.

Lemma drain_counts I left dbg s : honest_iter I left -> left s <= USIZE_MAX ->
  exists rounds, forall fuel, (rounds <= fuel)%nat -> exists s', zdrain I dbg fuel 0 s = ORet (Some (left s)) s'.
Proof.
  intros H Hs. exists (S (Z.to_nat (left s))). intros fuel Hf.
  apply (zdrain_counts I left H dbg fuel 0 s); [lia|exact Hs|exact Hf].
Qed.
Lemma drain_saturates I left dbg s : honest_iter I left -> (forall s, 0 < left s -> 0 < z_lower I s) ->
  exists rounds, forall fuel, (rounds <= fuel)%nat -> exists s', zdrain I dbg fuel 0 s = ORet (Some (Z.min (left s) USIZE_MAX)) s'.
Proof.
  intros H Hp. exists (S (Z.to_nat USIZE_MAX)). intros fuel Hf.
  apply (zdrain_saturates I left H dbg Hp fuel 0 s); [split; [lia|reflexivity]|exact Hf].
Qed.
Lemma drain_endless I dbg s :
  (forall s, 0 < z_lower I s <= USIZE_MAX) -> (forall k s, z_nth I k s <> None) ->
  exists rounds, forall fuel, (rounds <= fuel)%nat -> exists s', zdrain I dbg fuel 0 s = ORet (Some USIZE_MAX) s'.
Proof.
  intros H1 H2. exists (S (Z.to_nat USIZE_MAX)). intros fuel Hf.
  apply (zdrain_endless I dbg H1 H2 fuel 0 s); [split; [lia|reflexivity]|exact Hf].
Qed.

(** ** Concrete iterators *)

(** A range of that length. *)
Definition range : ziter :=
  mkZ N (fun n => Z.min (Z.of_N n) USIZE_MAX)
      (fun n => if (n =? 0)%N then None else Some (N.pred n))
      (fun k n => if Z.of_N n <=? k then None else Some (n - Z.to_N k - 1)%N).

(** [Flatten] over ranges: the hint is about the range in front only. *)
Fixpoint flat_nth (k : Z) (l : list N) : option (list N) :=
  match l with
  | [] => None
  | n :: l' => if Z.of_N n <=? k then flat_nth (k - Z.of_N n) l' else Some ((n - Z.to_N k - 1)%N :: l')
  end.
Definition flatten : ziter :=
  mkZ (list N) (fun l => match l with [] => 0 | n :: _ => Z.min (Z.of_N n) USIZE_MAX end) (flat_nth 0) flat_nth.
Fixpoint flat_left (l : list N) : Z := match l with [] => 0 | n :: l' => Z.of_N n + flat_left l' end.

Definition forever : ziter := mkZ unit (fun _ => USIZE_MAX) (fun _ => Some tt) (fun _ _ => Some tt).

Lemma range_honest : honest_iter range Z.of_N /\ (forall n, 0 < Z.of_N n -> 0 < z_lower range n).
Proof.
  unfold honest_iter, range, USIZE_MAX; cbn [z_st z_lower z_next z_nth]. split; [|lia].
  split; [lia|]. split; [lia|]. split.
  - intros n. destruct (N.eqb_spec n 0); lia.
  - intros k n Hk. destruct (Z.leb_spec (Z.of_N n) k); lia.
Qed.

Lemma flat_left_nonneg l : 0 <= flat_left l.
Proof. induction l as [|n l IH]; cbn [flat_left]; lia. Qed.
Lemma flat_nth_left : forall l k, 0 <= k ->
  match flat_nth k l with Some l' => flat_left l = flat_left l' + k + 1 | None => flat_left l <= k end.
Proof.
  induction l as [|n l IH]; intros k Hk; cbn [flat_nth flat_left]; [lia|].
  destruct (Z.leb_spec (Z.of_N n) k).
  - specialize (IH (k - Z.of_N n) ltac:(lia)). destruct (flat_nth _ l) as [l'|]; lia.
  - cbn [flat_left]. lia.
Qed.
Lemma flatten_honest : honest_iter flatten flat_left.
Proof.
  unfold honest_iter, flatten, USIZE_MAX; cbn [z_st z_lower z_next z_nth].
  split; [apply flat_left_nonneg|]. split; [|split].
  - intros [|n l]; cbn [flat_left]; [lia|]. pose proof (flat_left_nonneg l). lia.
  - intros l. pose proof (flat_nth_left l 0 ltac:(lia)) as H. destruct (flat_nth 0 l) as [l'|]; [lia|]. pose proof (flat_left_nonneg l). lia.
  - intros k l Hk. apply flat_nth_left. exact Hk.
Qed.

(** 2^64 elements, one more than fits: a count of [usize::MAX] reached by single steps
    is increased once more (1460). *)
Lemma drain_overflows : exists l s s',
  honest_iter flatten flat_left /\ flat_left l = USIZE_MAX + 1 /\
  zdrain flatten true 5 0 l = OPanic s /\ zdrain flatten false 5 0 l = ORet (Some 0) s'.
Proof. exists [0; 18446744073709551614; 1; 1]%N, [0]%N, [0]%N. split; [exact flatten_honest|]. repeat split; vm_compute; reflexivity. Qed.
(** Or [lower] becomes 0 (1464), and [lower - 1] is computed. *)
Lemma drain_underflows : exists l s s',
  honest_iter flatten flat_left /\ flat_left l = USIZE_MAX + 1 /\
  zdrain flatten true 4 0 l = OPanic s /\ zdrain flatten false 4 0 l = ORet (Some USIZE_MAX) s'.
Proof. exists [0; 18446744073709551614; 2]%N, [1]%N, [1]%N. split; [exact flatten_honest|]. repeat split; vm_compute; reflexivity. Qed.
