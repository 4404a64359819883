(** * C41 Counting zero-sized elements saturates

    [zdrain I dbg fuel 0 s] - [saturating_drain_iter] of the iterator [I] in state
    [s]; [honest_iter I left] - [left s] elements are to come, and the hints are true. *)
From Verif Require Import Base BaseFacts Arena Blink BlinkInv BlinkMain BlinkEnv BlinkYield BlinkProps BlinkFate BlinkEntry BlinkDemo Drain DrainBlink ZstTwice.

(** Whenever the number fits it is found, without overflow. *)
Theorem C41_counts : forall I left dbg s, honest_iter I left -> left s <= USIZE_MAX ->
  exists rounds, forall fuel, (rounds <= fuel)%nat -> exists s', zdrain I dbg fuel 0 s = ORet (Some (left s)) s'.
Proof. exact drain_counts. Qed.
Print Assumptions C41_counts.
Example C41_counts_case :
  honest_iter flatten flat_left /\ flat_left [0; 3; 0; 4]%N = 7 /\ exists s, zdrain flatten true 8 0 [0; 3; 0; 4]%N = ORet (Some 7) s.
Proof. split; [exact flatten_honest|]. split; [reflexivity|]. eexists. vm_compute. reflexivity. Qed.

(** It saturates.  Missing: longer iterators whose hint is 0 before the end. *)
Theorem C41_saturates_partial : forall I left dbg s,
  honest_iter I left -> (forall s, 0 < left s -> 0 < z_lower I s) ->
  exists rounds, forall fuel, (rounds <= fuel)%nat -> exists s', zdrain I dbg fuel 0 s = ORet (Some (Z.min (left s) USIZE_MAX)) s'.
Proof. exact drain_saturates. Qed.
Print Assumptions C41_saturates_partial.
Example C41_saturates_case :
  (honest_iter range Z.of_N /\ forall n, 0 < Z.of_N n -> 0 < z_lower range n) /\
  (exists s, zdrain range true 2 0 18446744073709551700%N = ORet (Some USIZE_MAX) s) /\
  (exists s, zdrain range true 2 0 18446744073709551600%N = ORet (Some 18446744073709551600) s).
Proof. split; [exact range_honest|]. split; eexists; vm_compute; reflexivity. Qed.
Theorem C41_endless : forall I dbg s,
  (forall s, 0 < z_lower I s <= USIZE_MAX) -> (forall k s, z_nth I k s <> None) ->
  exists rounds, forall fuel, (rounds <= fuel)%nat -> exists s', zdrain I dbg fuel 0 s = ORet (Some USIZE_MAX) s'.
Proof. exact drain_endless. Qed.
Print Assumptions C41_endless.
Example C41_endless_case : zdrain forever true 1 0 tt = ORet (Some USIZE_MAX) tt.
Proof. reflexivity. Qed.

(** [Flatten] over ranges, with 2^64 elements in all: a debug build panics; a release
    build finds 0. *)
Theorem C41_refuted : exists l s s',
  honest_iter flatten flat_left /\ flat_left l = USIZE_MAX + 1 /\
  zdrain flatten true 5 0 l = OPanic s /\ zdrain flatten false 5 0 l = ORet (Some 0) s'.
Proof. exact drain_overflows. Qed.
Print Assumptions C41_refuted.
(** Another overflow, in a debug build only. *)
Theorem C41_underflow_refuted : exists l s s',
  honest_iter flatten flat_left /\ flat_left l = USIZE_MAX + 1 /\
  zdrain flatten true 4 0 l = OPanic s /\ zdrain flatten false 4 0 l = ORet (Some USIZE_MAX) s'.
Proof. exact drain_underflows. Qed.
Print Assumptions C41_underflow_refuted.

(** The slice that [from_iter] returns has this length: for any iterator with true
    hints, whatever else it does. *)
Theorem C41_slice_length : forall E k tr T it s s',
  t_size T = 0 -> legal (BFromIter k tr T it) = true -> true_hints it -> until_none (outs_of it) <= USIZE_MAX ->
  erun1 E (BFromIter k tr T it) s = ORet tt s' ->
  exists t h, bl_tab s' = t ++ [Some h] /\
    (h_cnt h = until_none (outs_of it) \/ (tr = Try /\ h_cnt h = 0 /\ exists d, bl_log s' = d ++ [EFail])).
Proof. exact collect_count. Qed.
Print Assumptions C41_slice_length.
Example C41_slice_length_case :
  let it := yields 2 [0; 0] (yields 0 [0; 0] (SNext 0 None BNil NNone done)) in
  true_hints it /\ until_none (outs_of it) = 4 /\ legal (BFromIter PutNoDrop Try unit_d it) = true /\
  shown (last_state w0 [BFromIter PutNoDrop Try unit_d it]) = [(4, [Some 0; Some 0; Some 0; Some 0])].
Proof. cbn [true_hints yields until_none outs_of]. repeat split; try lia; vm_compute; reflexivity. Qed.

(** ** C40 Zero-sized elements are dropped exactly once: each is dropped twice

    For every iterator with true hints that does not use the [Blink] itself: each value
    is dropped when it is collected ([EEarly]) and again by the next reset ([EDrop]).
    [taken] - the values before the first [None]; [both] - yielded and dropped. *)
Theorem C40_each_dropped_twice : forall E fr w os s k tr T it s1 s2,
  env_ok E -> arrives E fr w os s -> t_drop T = true /\ (k = Put \/ k = Emplace \/ k = EmplaceUnchecked) ->
  (forall id v, e_bomb E id v = false) ->
  t_size T = 0 -> legal (BFromIter k tr T it) = true -> sound (e_exact E) (BFromIter k tr T it) = true ->
  plain it = true -> true_hints it -> until_none (outs_of it) <= USIZE_MAX ->
  erun1 E (BFromIter k tr T it) s = ORet tt s1 -> erun1 E BReset s1 = ORet tt s2 ->
  let n := length (taken (outs_of it)) in
  (bl_log s1 = bl_log s ++ flat_map (both (t_id T)) (taken (outs_of it)) ++ [ENew true (t_id T) (repeat (Some 0) n)] /\
   exists older, bl_log s2 = bl_log s1 ++ EReset :: repeat (EDrop (t_id T) 0) n ++ older) \/
  (tr = Try /\ bl_log s1 = bl_log s ++ [ENew false (t_id T) []; EFail]).
Proof. exact (fun E fr w os s k tr T it s1 s2 HE => collect_twice E HE fr w os s k tr T it s1 s2). Qed.
Print Assumptions C40_each_dropped_twice.
(** In every other way of collecting them they are dropped when collected. *)
Theorem C40_each_dropped_early : forall E k tr T it s s',
  t_size T = 0 -> t_drop T = true -> legal (BFromIter k tr T it) = true -> plain it = true -> true_hints it ->
  until_none (outs_of it) <= USIZE_MAX -> erun1 E (BFromIter k tr T it) s = ORet tt s' ->
  bl_log s' = bl_log s ++ flat_map (both (t_id T)) (taken (outs_of it)) ++
                [ENew (dropping k T) (t_id T) (repeat (Some 0) (length (taken (outs_of it))))] \/
  (tr = Try /\ bl_log s' = bl_log s ++ [ENew false (t_id T) []; EFail]).
Proof. exact collect_early. Qed.
Print Assumptions C40_each_dropped_early.
Example C40_each_case :
  let it := yields 2 [0; 0] (yields 0 [0] done) in
  plain it = true /\ true_hints it /\ taken (outs_of it) = [0; 0; 0] /\ legal (BFromIter Put Try unit_d it) = true /\
  bl_log (last_state w0 [BFromIter Put Try unit_d it; BReset]) =
    [EYield 4 0; EEarly 4 0; EYield 4 0; EEarly 4 0; EYield 4 0; EEarly 4 0; ENew true 4 [Some 0; Some 0; Some 0];
     EReset; EDrop 4 0; EDrop 4 0; EDrop 4 0].
Proof.
  split; [reflexivity|]. split; [cbn; lia|]. split; [reflexivity|]. split; vm_compute; reflexivity.
Qed.
