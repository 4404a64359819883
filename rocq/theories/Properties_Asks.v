(** Property C79: what a [Blink] asks of its allocator.

    Vocabulary (Asks.v).  [noting E] - the environment [E] (BlinkEnv.v), whose allocator now writes
    down every call of a method of [Allocator] and the answer.  [notes s] - these notes, the most
    recent call first.  [strip s] - the state without them.  [ends r s'] - the operation returns or
    unwinds, in state [s'].  [lead it] - how many elements an iterator yields.  [truthful it] - these
    are always within the bounds of its [size_hint], and it is fused.  [plain it] - its [next] does
    not use the [Blink] itself.  [lower it] - the first lower bound.  [one_block evs] - one [allocate],
    then only [grow], each of them told the block and layout of the answer before and asking for more.
    [wanted ev], [wanted_align ev] - the number of bytes asked for, and their alignment.  [array_align] - the
    alignment of the elements and the header, if there is one.  [placing] and [at_most] - one request, which is taken back if the
    closure fails; at most this request.  [array_off] - the space for the header of a slice with
    destructors, 0 for others.

    These theorems are about any allocator and any state. *)
From Verif Require Import Base BaseFacts Alloc AllocFacts Arena BlinkAlloc History HistoryFacts Setup SetupFacts Concrete
  Blink BlinkInv BlinkEnv BlinkYield BlinkProps BlinkDemo Asks AsksFacts AsksMain AsksDemo.

(** ** C79 What is asked of the allocator *)

(** Taking notes changes nothing, *)
Theorem C79_notes_change_nothing : forall E os s, erun E os (strip s) = omap strip (erun (noting E) os s).
Proof. exact run_strip. Qed.
Print Assumptions C79_notes_change_nothing.
(** and an allocator that takes notes is as good as before. *)
Theorem C79_notes_ok : forall E, env_ok E -> env_ok (noting E).
Proof. exact noting_ok. Qed.
Print Assumptions C79_notes_ok.
Example C79_case_notes : env_ok En /\ length (notes s_used) = 4%nat /\ shown (strip s_used) = shown (last_state w0 usual) /\ length (live (bl_tab s_used)) = 4%nat.
Proof. split; [apply noting_ok, own_env_ok|]. vm_compute. split; [reflexivity|]. split; reflexivity. Qed.

(** A value: one request for its layout, given back if the closure fails; a panic keeps it. *)
Theorem C79_value : forall E k tr T r e out s s',
  ty_okb T && res_okb T r && res_okb T e && match out with COk v => value_okb T v | _ => true end = true ->
  let m := erun1 (noting E) (BEmplace k tr T r e BNil out) s in
  ends m s' ->
  exists new, notes s' = new ++ notes s /\
    ((m = ORet tt s' /\ placing (placed_lay k T e) out new) \/ (m = OPanic s' /\ at_most (placed_lay k T e) new)).
Proof. exact emplace_asks. Qed.
Print Assumptions C79_value.
Example C79_case_value : ended_well refusing = true /\ ended_well panicking = false /\
  sizes (calls_of (put dropper 4)) = [(true, 32)] /\ sizes (calls_of refusing) = [(true, 40); (false, 40)] /\
  sizes (calls_of panicking) = [(true, 40)] /\ sizes (calls_of (put u64 4)) = [(true, 8)].
Proof. vm_compute. repeat split; reflexivity. Qed.

(** A copy of a slice, and a value without contents: one request, of exactly this size. *)
Theorem C79_copy : forall E tr T vs s s', ends (erun1 (noting E) (BCopy tr T vs) s) s' -> exists new, notes s' = new ++ notes s /\
  (new = [] \/ exists a, new = [EvAlloc (mkLayout (Z.of_nat (length vs) * t_size T) (t_align T)) a]).
Proof. exact copy_asks. Qed.
Print Assumptions C79_copy.
Theorem C79_uninit : forall E tr T s s', ends (erun1 (noting E) (BUninit tr T) s) s' -> exists new, notes s' = new ++ notes s /\
  (new = [] \/ exists a, new = [EvAlloc (mkLayout (t_size T) (t_align T)) a]).
Proof. exact uninit_asks. Qed.
Print Assumptions C79_uninit.
(** Writing through a reference, and dropping everything, need no memory. *)
Theorem C79_quiet : forall E o s s', match o with BSet _ _ _ | BReset | BDropAll => true | _ => false end = true ->
  ends (erun1 (noting E) o s) s' -> notes s' = notes s.
Proof. exact quiet. Qed.
Print Assumptions C79_quiet.
Example C79_case_copy : sizes (calls_of (BCopy Try u64 [1; 2; 3])) = [(true, 24)] /\ sizes (calls_of (BUninit Try u64)) = [(true, 8)] /\
  ended_well BReset = true /\ ended_well BDropAll = true /\ ended_well (BSet 1 0 8) = true /\ calls_of BReset = [] /\ calls_of BDropAll = [] /\ calls_of (BSet 1 0 8) = [].
Proof. vm_compute. repeat split; reflexivity. Qed.

(** Collecting [n] elements of an iterator whose [size_hint] is true takes one block, which is moved
    or extended at most once for every doubling of [n] (more than two requests only for [n >= 18],
    more than three only for [n >= 36], and so on), is never given back, and is never asked for with
    room for more than [2 n + 16] elements, always with the same alignment; however it ends. *)
Theorem C79_collect : forall E k tr T it s s', 0 < t_size T -> plain it = true -> truthful it = true ->
  ends (erun1 (noting E) (BFromIter k tr T it) s) s' ->
  exists new, notes s' = new ++ notes s /\ one_block new /\
    Forall (fun ev => wanted ev <= array_off (dropping k T) T + (2 * Z.of_nat (lead it) + 16) * t_size T /\
      wanted_align ev = array_align (dropping k T) T) new /\
    ((length new <= 1)%nat \/ 9 * 2 ^ (Z.of_nat (length new) - 2) <= Z.of_nat (lead it)).
Proof. exact collect_asks. Qed.
Print Assumptions C79_collect.
Example C79_case_collect : plain (unknown 80) = true /\ truthful (unknown 80) = true /\ lead (unknown 80) = 80%nat /\
  ended_well (BFromIter Put Try dropper (unknown 80)) = true /\
  sizes (calls_of (BFromIter Put Try dropper (unknown 80))) = [(true, 24 + 17 * 8); (false, 24 + 35 * 8); (false, 24 + 71 * 8); (false, 24 + 143 * 8)] /\
  sizes (calls_of (BFromIter Put Try u64 (unknown 36))) = [(true, 17 * 8); (false, 35 * 8); (false, 71 * 8)] /\
  sizes (calls_of (BFromIter Put Try u64 (unknown 35))) = [(true, 17 * 8); (false, 35 * 8)].
Proof. vm_compute. repeat split; reflexivity. Qed.
(** If the first lower bound is the number of elements, as it is for every [ExactSizeIterator], there is
    at most one request, for that many elements and at least 8; *)
Theorem C79_known_length : forall E k tr T it s s', 0 < t_size T -> plain it = true -> truthful it = true -> lower it = Z.of_nat (lead it) ->
  ends (erun1 (noting E) (BFromIter k tr T it) s) s' -> exists new, notes s' = new ++ notes s /\
    (new = [] \/ (1 <= Z.of_nat (lead it) /\ exists lay r, new = [EvAlloc lay r] /\
       l_size lay = array_off (dropping k T) T + Z.max (Z.of_nat (lead it)) 8 * t_size T)).
Proof. exact exact_asks. Qed.
Print Assumptions C79_known_length.
(** for an empty one there is none, *)
Theorem C79_empty : forall E k tr T it s s', 0 < t_size T -> plain it = true -> truthful it = true -> lead it = O ->
  ends (erun1 (noting E) (BFromIter k tr T it) s) s' -> notes s' = notes s.
Proof. exact nothing_asks. Qed.
Print Assumptions C79_empty.
(** and elements without size need at most a header, whatever the iterator says about their number. *)
Theorem C79_zero_sized : forall E k tr T it s s', t_size T = 0 -> plain it = true -> ends (erun1 (noting E) (BFromIter k tr T it) s) s' ->
  exists new, notes s' = new ++ notes s /\ (new = [] \/ (dropping k T = true /\ exists r, new = [EvAlloc (head_layout T) r])).
Proof. exact zst_asks. Qed.
Print Assumptions C79_zero_sized.
Example C79_case_known : truthful (counted 40) = true /\ lower (counted 40) = 40 /\ lead (counted 40) = 40%nat /\
  sizes (calls_of (BFromIter Put Try u64 (counted 40))) = [(true, 320)] /\ sizes (calls_of (BFromIter Put Try dropper (counted 3))) = [(true, 24 + 64)] /\
  ended_well (BFromIter Put Try dropper (counted 0)) = true /\ calls_of (BFromIter Put Try dropper (counted 0)) = [] /\
  sizes (calls_of (BFromIter Put Try unit_d (yields 1 [0; 0; 0] done))) = [(true, 24)] /\ calls_of (BFromIter PutNoDrop Try unit_d (yields 1 [0; 0; 0] done)) = [].
Proof. vm_compute. repeat split; reflexivity. Qed.
(** An upper bound that is too low costs a request for every single element. *)
Example C79_case_false_hints : exists E k tr T it s s', env_ok E /\ 0 < t_size T /\ plain it = true /\ truthful it = false /\
  ends (erun1 (noting E) (BFromIter k tr T it) s) s' /\ lead it = 28%nat /\ length (notes s') = (20 + length (notes s))%nat.
Proof. exact false_hints. Qed.
