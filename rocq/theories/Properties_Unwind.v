(** When memory is exhausted and [handle_alloc_error] unwinds instead of aborting.

    Vocabulary as in Properties_Blink.v.  [Unwinds] - the mode of an operation whose
    allocation failure panics; [steady it] - neither [next] nor [size_hint] of the
    iterator panics; [EEarly i v] - the value [v] of type [i] is dropped at once. *)
From Verif Require Import Base BaseFacts Alloc AllocFacts Arena BlinkAlloc History HistoryFacts Setup SetupFacts
  Blink BlinkInv BlinkReset BlinkOps BlinkIter BlinkMain BlinkEnv BlinkLog BlinkYield BlinkProps BlinkFate BlinkUnwind BlinkDemo UnwindDemo.

(** ** C82 Unwinding out-of-memory errors *)

(** A value that finds no room is dropped, once, by whatever method it was put in; *)
Theorem C82_value : forall E fr w os s k T r e v s',
  env_ok E -> arrives E fr w os s ->
  let o := BEmplace k Unwinds T r e BNil (COk v) in
  sound (e_exact E) o = true -> erun1 E o s = OPanic s' ->
  bl_tab s' = bl_tab s /\ bl_root s' = bl_root s /\ bl_log s' = bl_log s ++ (if t_drop T then [EEarly (t_id T) v] else []).
Proof. exact (fun E fr w os s k T r e v s' HE => value_unwinds E HE fr w os s k T r e v s'). Qed.
Print Assumptions C82_value.
(** of the elements of an iterator, the one at hand; those collected before are kept,
    registered for dropping if they are to be dropped; *)
Theorem C82_collect : forall E fr w os s k T it s',
  env_ok E -> arrives E fr w os s ->
  let o := BFromIter k Unwinds T it in
  sound (e_exact E) o = true -> t_size T <> 0 -> plain it = true -> steady it -> erun1 E o s = OPanic s' ->
  exists used rest vals one, outs_of it = used ++ rest /\ somes used = vals ++ opt_list one /\ (one = None -> vals = []) /\
    (vals = [] \/ shows E s' (dropping k T) (t_id T) vals) /\
    exists d, bl_log s' = bl_log s ++ d ++ (if t_drop T then map (EEarly (t_id T)) (opt_list one) else []).
Proof. exact (fun E fr w os s k T it s' HE => collect_unwinds E HE fr w os s k T it s'). Qed.
Print Assumptions C82_collect.
(** and every other theorem applies to what happens afterwards. *)
Theorem C82_goes_on : forall E fr w os s o s',
  arrives E fr w os s -> sound (e_exact E) o = true -> erun1 E o s = OPanic s' -> arrives E fr w (os ++ [o]) s'.
Proof. exact (fun E fr w os s o s' Ha Hs Hp => goes_on E fr w os s o s' Ha Hs (or_intror Hp)). Qed.
Print Assumptions C82_goes_on.

Example C82_case_value :
  sound true lost_put = true /\ (exists s', erun1 En lost_put (bl_new wn) = OPanic s') /\
  bl_log (last_state wn [lost_put; BReset]) = [EEarly 2 7; EReset].
Proof. split; [reflexivity|]. split; [exact lost_put_panics|]. vm_compute. reflexivity. Qed.
Example C82_case_collect :
  sound true lost_collect = true /\ plain lost_script = true /\ steady lost_script /\
  arrives Es [] ws [put dropper 5] (last_state ws [put dropper 5]) /\
  (exists s', erun1 Es lost_collect (last_state ws [put dropper 5]) = OPanic s') /\
  bl_log (last_state ws [put dropper 5; lost_collect; BReset]) =
    [ENew true 2 [Some 5]] ++ map (EYield 2) (upto 36) ++ [ENew true 2 (map Some (upto 35)); EEarly 2 36; EReset] ++
    map (EDrop 2) (upto 35) ++ [EDrop 2 5].
Proof.
  split; [reflexivity|]. split; [reflexivity|]. split; [exact lost_steady|].
  split; [apply last_arrives; [apply fresh_ready| |]; vm_compute; reflexivity|]. split; [exact lost_collect_panics|].
  vm_compute. reflexivity.
Qed.
(** Zero-sized values: nothing was taken from the iterator yet. *)
Example C82_case_zero_sized :
  bl_log (last_state wn [BFromIter Put Unwinds unit_d (yields 0 [0; 0] done); BReset]) = [EReset].
Proof. vm_compute. reflexivity. Qed.
