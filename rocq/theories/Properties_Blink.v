(** Properties C31-C40, C42-C44, C50, C65: [Blink].

    Vocabulary (Blink.v, BlinkEnv.v, BlinkProps.v).  [env] - an allocator with its
    [reset] method, a build mode, and the set of panicking destructors ([e_bomb]).
    [env_ok] - the allocator keeps the contract of [Allocator]; [owned su], resp.
    [borrowed su], is a [BlinkAlloc], owned by the [Blink], resp. shared with others.

    [bop] - an operation of a client; closures and iterators are programs that may
    use the same [Blink] and may panic; the client catches panics.  [erun1 E o],
    [erun E os] - running it, running a program.  The state has the references
    alive ([bl_tab]; [live] drops dead entries) and a log ([bl_log]).

    [arrives E fr w os s] - started with the allocator in state [w], when others
    own the blocks [fr], the program [os] leads to [s].  It contains
    [sound (e_exact E)] for each operation: closures with an error value and
    iterators stay clear of the memory errors that C36-C38 are about.  For a
    [BlinkAlloc] these are: fallible emplacement where [Result] is bigger than what
    is allocated, and, with dropping, iterators that resume after [None]. *)
From Verif Require Import Base BaseFacts Alloc AllocFacts Arena BlinkAlloc History HistoryFacts Setup SetupFacts Concrete
  Blink BlinkInv BlinkReset BlinkIter BlinkMain BlinkEnv BlinkLog BlinkYield BlinkProps BlinkFate BlinkEntry BlinkDemo BlinkDrop.

(** The allocators of this crate are such environments, over any honest allocator. *)
Theorem C31_owned_alloc : forall su bomb, setup_ok su -> ISIZE_MAX <= su_smax su -> env_ok (owned su bomb).
Proof. exact owned_ok. Qed.
Print Assumptions C31_owned_alloc.
Theorem C44_shared_alloc : forall su bomb, setup_ok su -> ISIZE_MAX <= su_smax su -> env_ok (borrowed su bomb).
Proof. exact borrowed_ok. Qed.
Print Assumptions C44_shared_alloc.

(** ** C31 Values are dropped exactly once, newest first *)

(** [reset] and [drop_all] run the destructors of all registered values that are
    in memory now, newest reference first, the elements of a slice in order. *)
Theorem C31_reset_drops_all : forall E fr w os s o,
  env_ok E -> arrives E fr w os s -> o = BReset \/ o = BDropAll -> (forall id v, e_bomb E id v = false) ->
  exists s', erun1 E o s = ORet tt s' /\ live (bl_tab s') = [] /\
    bl_log s' = bl_log s ++ EReset :: map edrop (flat_map entry_drops (map (entry_of (mem_of s)) (rev (live (bl_tab s))))).
Proof. exact (fun E fr w os s o HE => reset_all_dropped E HE fr w os s o). Qed.
Print Assumptions C31_reset_drops_all.

(** All destructors that ever ran are those that a list of values, kept beside,
    calls for. *)
Theorem C31_whole_history : forall E fr w os s,
  env_ok E -> arrives E fr w os s -> drops_of (bl_log s) = snd (especs (e_bomb E) [] (bl_log s)).
Proof. exact (fun E fr w os s HE Ha => eq_sym (all_drops E HE fr w os s Ha)). Qed.
Print Assumptions C31_whole_history.

(** For every type: as many destructors as values put in, once none is left. *)
Theorem C31_exactly_once : forall E fr w os s i,
  env_ok E -> arrives E fr w os s -> (forall id v, e_bomb E id v = false) -> live (bl_tab s) = [] ->
  drop_n i (bl_log s) = new_n i (bl_log s).
Proof. exact (fun E fr w os s i HE => exactly_once E HE fr w os s i). Qed.
Print Assumptions C31_exactly_once.

(** Which ways of putting a value in register it: [put], [emplace] and
    [emplace_unchecked], if its type has a destructor. *)
Theorem C31_registered : forall E fr w os s k tr T r e body v s',
  env_ok E -> arrives E fr w os s -> t_drop T = true /\ (k = Put \/ k = Emplace \/ k = EmplaceUnchecked) ->
  let o := BEmplace k tr T r e body (COk v) in
  sound (e_exact E) o = true -> legal o = true -> erun1 E o s = ORet tt s' ->
  shows E s' true (t_id T) [v] \/
  (tr = Try /\ bl_log s' = bl_log s ++ [EFail; EBack (t_id T) v] /\ bl_tab s' = bl_tab s /\ bl_root s' = bl_root s).
Proof. exact (fun E fr w os s k tr T r e body v s' HE => value_registered E HE fr w os s k tr T r e body v s'). Qed.
Print Assumptions C31_registered.
Theorem C31_slice_registered : forall E fr w os s k tr T it s',
  env_ok E -> arrives E fr w os s -> t_drop T = true /\ (k = Put \/ k = Emplace \/ k = EmplaceUnchecked) ->
  let o := BFromIter k tr T it in
  sound (e_exact E) o = true -> legal o = true -> t_size T <> 0 -> fused it = true -> items it <> [] -> erun1 E o s = ORet tt s' ->
  shows E s' true (t_id T) (items it) \/ (tr = Try /\ In EFail (bl_log s')).
Proof. exact (fun E fr w os s k tr T it s' HE => slice_registered E HE fr w os s k tr T it s'). Qed.
Print Assumptions C31_slice_registered.
(** The next reset drops the newest first. *)
Theorem C31_newest_first : forall E fr w os s s' id vs,
  env_ok E -> arrives E fr w os s -> shows E s true id vs -> (forall id v, e_bomb E id v = false) -> erun1 E BReset s = ORet tt s' ->
  exists older, bl_log s' = bl_log s ++ EReset :: map (EDrop id) vs ++ older.
Proof. exact (fun E fr w os s s' id vs HE => reset_newest E HE fr w os s s' id vs). Qed.
Print Assumptions C31_newest_first.

Example C31_registered_case :
  let o := BEmplace EmplaceUnchecked Try dropper plainr plainr BNil (COk 9) in
  let o2 := BFromIter Emplace Aborts boxed (yields 2 [5; 6] done) in
  sound true o = true /\ legal o = true /\ sound true o2 = true /\ legal o2 = true /\ fused (yields 2 [5; 6] done) = true /\
  arrives Eo [] w0 [o; o2] (last_state w0 [o; o2]) /\
  bl_log (last_state w0 [o; o2; BReset]) = bl_log (last_state w0 [o; o2]) ++ [EReset; EDrop 3 5; EDrop 3 6; EDrop 2 9].
Proof. do 5 (split; [vm_compute; reflexivity|]). split; [apply last_arrives; [apply fresh_ready| |]|]; vm_compute; reflexivity. Qed.
Example C31_case :
  arrives Eo [] w0 usual (last_state w0 usual) /\
  bl_log (last_state w0 (usual ++ [BReset])) =
    bl_log (last_state w0 usual) ++ [EReset; EDrop 2 9; EDrop 3 21; EDrop 3 22; EDrop 3 23; EDrop 2 6].
Proof. split; [apply last_arrives; [apply fresh_ready| |]|]; vm_compute; reflexivity. Qed.
Example C31_case_nested :
  arrives Eo [] w0 nested (last_state w0 nested) /\
  bl_log (last_state w0 (nested ++ [BDropAll])) =
    bl_log (last_state w0 nested) ++ [EReset; EDrop 2 5; EDrop 2 6; EDrop 2 8; EDrop 3 4; EDrop 2 3; EDrop 2 1].
Proof. split; [apply last_arrives; [apply fresh_ready| |]|]; vm_compute; reflexivity. Qed.

(** ** C32 No-drop emplacement never runs destructors *)

(** If all operations of the program, at any depth, that put in values of type [i] do so by
    [put_no_drop] and [emplace_no_drop], no reset drops one. *)
Theorem C32_never_dropped_partial : forall E fr w os s i,
  env_ok E -> arrives E fr w os s -> forallb (all_op (only_by [PutNoDrop; EmplaceNoDrop] i)) os = true ->
  new_n i (bl_log s) = 0%nat /\ drop_n i (bl_log s) = 0%nat.
Proof. exact (fun E fr w os s i HE => no_drop_entries_never E HE fr w os s i). Qed.
Print Assumptions C32_never_dropped_partial.
(** Nor is it dropped in any other way, unless zero-sized values of this type are
    collected, or [from_iter] gives up, or memory is exhausted and that unwinds. *)
Theorem C32_not_while_collecting_partial : forall E fr w os s i,
  arrives E fr w os s -> forallb (all_op (op_fine i true false)) os = true ->
  forall v, ~ In (EEarly i v) (bl_log s).
Proof. exact never_early. Qed.
Print Assumptions C32_not_while_collecting_partial.
(** [put_no_drop], [emplace_no_drop] and (as it is, see C33) [emplace_shared] register
    nothing, nor does any other way if the type has no destructor. *)
Theorem C32_not_registered_partial : forall E fr w os s k tr T r e body v s',
  env_ok E -> arrives E fr w os s -> t_drop T = false \/ k = PutNoDrop \/ k = EmplaceNoDrop \/ k = EmplaceShared ->
  let o := BEmplace k tr T r e body (COk v) in
  sound (e_exact E) o = true -> legal o = true -> erun1 E o s = ORet tt s' ->
  shows E s' false (t_id T) [v] \/
  (tr = Try /\ bl_log s' = bl_log s ++ [EFail; EBack (t_id T) v] /\ bl_tab s' = bl_tab s /\ bl_root s' = bl_root s).
Proof. exact (fun E fr w os s k tr T r e body v s' HE => value_not_registered E HE fr w os s k tr T r e body v s'). Qed.
Print Assumptions C32_not_registered_partial.
Theorem C32_slice_not_registered_partial : forall E fr w os s k tr T it s',
  env_ok E -> arrives E fr w os s -> t_drop T = false \/ k = PutNoDrop \/ k = EmplaceNoDrop \/ k = EmplaceShared ->
  let o := BFromIter k tr T it in
  sound (e_exact E) o = true -> legal o = true -> t_size T <> 0 -> erun1 E o s = ORet tt s' ->
  exists vals, shows E s' false (t_id T) vals.
Proof. exact (fun E fr w os s k tr T it s' HE => slice_not_registered E HE fr w os s k tr T it s'). Qed.
Print Assumptions C32_slice_not_registered_partial.
(** What is missing is false: collected zero-sized values are dropped while they
    are counted, although the entry point is [put_no_drop]. *)
Theorem C32_refuted : exists it s,
  legal (BFromIter PutNoDrop Try unit_d it) = true /\
  erun Eo [BFromIter PutNoDrop Try unit_d it] (bl_new w0) = ORet tt s /\
  bl_log s = [EYield 4 0; EEarly 4 0; EYield 4 0; EEarly 4 0; ENew false 4 [Some 0; Some 0]].
Proof. exact zero_sized_dropped. Qed.
Print Assumptions C32_refuted.
Example C32_case :
  let os := [put dropper 5; BEmplace PutNoDrop Try boxed plainr plainr BNil (COk 8);
             BFromIter EmplaceNoDrop Try boxed (yields 2 [9] done); BReset] in
  forallb (all_op (only_by [PutNoDrop; EmplaceNoDrop] 3)) os = true /\ forallb (all_op (op_fine 3 true false)) os = true /\
  arrives Eo [] w0 os (last_state w0 os) /\ drop_n 2 (bl_log (last_state w0 os)) = 1%nat.
Proof. split; [reflexivity|]. split; [reflexivity|]. split; [apply last_arrives; [apply fresh_ready| |]|]; vm_compute; reflexivity. Qed.

(** ** C33 Documented: emplace_shared values are dropped on reset *)
Theorem C33_refuted : exists s,
  legal shared_put = true /\ sound true shared_put = true /\ t_drop dropper = true /\
  erun Eo [shared_put; BReset] (bl_new w0) = ORet tt s /\ bl_log s = [ENew false 2 [Some 5]; EReset].
Proof. exact shared_not_dropped. Qed.
Print Assumptions C33_refuted.
(** It is never true: if values of type [i] are put in by [emplace_shared] only, no reset ever
    drops one. *)
Theorem C33_never_dropped : forall E fr w os s i,
  env_ok E -> arrives E fr w os s -> forallb (all_op (only_by [EmplaceShared] i)) os = true ->
  drop_n i (bl_log s) = 0%nat.
Proof. exact (fun E fr w os s i HE => shared_entry_never E HE fr w os s i). Qed.
Print Assumptions C33_never_dropped.
Example C33_case :
  let os := [shared_put; put boxed 5; BFromIter EmplaceShared Try dropper (yields 2 [8; 9] done); BReset; shared_put; BDropAll] in
  forallb (all_op (only_by [EmplaceShared] 2)) os = true /\ arrives Eo [] w0 os (last_state w0 os) /\
  drop_n 3 (bl_log (last_state w0 os)) = 1%nat.
Proof. split; [reflexivity|]. split; [apply last_arrives; [apply fresh_ready| |]|]; vm_compute; reflexivity. Qed.

(** ** C34 A panicking destructor never causes a double drop *)

(** [due E s] - what a reset in state [s] should drop: as in C31, but nothing older
    than a value whose destructor panics.  In every case the list of values to be
    dropped is empty and no reference is left, so nothing can be dropped again. *)
Theorem C34_reset : forall E fr w os s o,
  env_ok E -> arrives E fr w os s -> o = BReset \/ o = BDropAll ->
  match erun1 E o s with
  | ORet _ s' => clean E s s' /\ bads (e_bomb E) (due E s) = 0%nat
  | OPanic s' => clean E s s' /\ bads (e_bomb E) (due E s) = 1%nat
  | OAbort => (2 <= bads (e_bomb E) (due E s))%nat
  | OUB => False
  end.
Proof. exact (fun E fr w os s o HE => reset_fate E HE fr w os s o). Qed.
Print Assumptions C34_reset.
(** Never twice, over any number of resets. *)
Theorem C34_at_most_once : forall E fr w os s i,
  env_ok E -> arrives E fr w os s -> (drop_n i (bl_log s) <= new_n i (bl_log s))%nat.
Proof. exact (fun E fr w os s i HE => at_most_once E HE fr w os s i). Qed.
Print Assumptions C34_at_most_once.
(** After a panic everything proved for programs holds for what follows. *)
Theorem C34_goes_on : forall E fr w os s o s',
  arrives E fr w os s -> sound (e_exact E) o = true -> erun1 E o s = ORet tt s' \/ erun1 E o s = OPanic s' ->
  arrives E fr w (os ++ [o]) s'.
Proof. exact goes_on. Qed.
Print Assumptions C34_goes_on.
Example C34_case :
  arrives Eb [] wb risky (last_state wb risky) /\
  due Eb (last_state wb risky) = [(2, 9); (2, 1); (2, 13); (2, 2)] /\
  bl_log (last_state wb (risky ++ [BReset; put dropper 6; BReset])) =
    bl_log (last_state wb risky) ++ [EReset; EDrop 2 9; EDrop 2 1; EDrop 2 13; EDrop 2 2; ENew true 2 [Some 6]; EReset; EDrop 2 6].
Proof. split; [apply last_arrives; [apply fresh_ready| |]|split]; vm_compute; reflexivity. Qed.

(** ** C35 Failed emplacement hands the input back *)

(** [shows E s reg id vals] - the last reference handed out is to a value of type
    [id] that reads [vals], [reg]: to be dropped. *)
Theorem C35_value : forall E fr w os s k tr T r e body v s',
  env_ok E -> arrives E fr w os s ->
  let o := BEmplace k tr T r e body (COk v) in
  sound (e_exact E) o = true -> legal o = true -> erun1 E o s = ORet tt s' ->
  shows E s' (dropping k T) (t_id T) [v] \/
  (tr = Try /\ bl_log s' = bl_log s ++ [EFail; EBack (t_id T) v] /\ bl_tab s' = bl_tab s /\ bl_root s' = bl_root s).
Proof. exact (fun E fr w os s k tr T r e body v s' HE => emplace_value E HE fr w os s k tr T r e body v s'). Qed.
Print Assumptions C35_value.
(** A closure that returns an error: it ran once and the error is returned, or it
    did not run; nothing but what its body did is registered. *)
Theorem C35_error : forall E s k tr T r e body x s',
  let o := BEmplace k tr T r e body (CErr x) in
  legal o = true -> erun1 E o s = ORet tt s' ->
  (exists s1 s2, unchanged s s1 /\ brun (e_A E) (e_reset E) (e_dbg E) (e_bomb E) body s1 = ORet tt s2 /\
     bl_root s' = bl_root s2 /\ bl_tab s' = bl_tab s2 /\ bl_log s' = bl_log s2 ++ [EErr x]) \/
  (tr = Try /\ bl_root s' = bl_root s /\ bl_tab s' = bl_tab s /\ bl_log s' = bl_log s ++ [EFail]).
Proof. exact emplace_error. Qed.
Print Assumptions C35_error.
Example C35_case :
  arrives En [] wn [put dropper 3] (last_state wn [put dropper 3]) /\ bl_log (last_state wn [put dropper 3]) = [EFail; EBack 2 3].
Proof. split; [apply last_arrives; [apply fresh_ready| |]|]; vm_compute; reflexivity. Qed.
Example C35_case_error :
  let o := BEmplace Emplace Try dropper fatr fatr (BCons (put u64 1) BNil) (CErr 99) in
  sound true o = true /\ bl_log (last_state w0 [o]) = [ENew false 1 [Some 1]; EErr 99].
Proof. split; vm_compute; reflexivity. Qed.

(** ** C36 Emplaced values are stored inside the block allocated for them *)

(** Missing: fallible emplacement where the [Result] stored does not fit into what
    is allocated; that part is false. *)
Theorem C36_no_undefined_behaviour_partial : forall E fr w os,
  env_ok E -> ready E fr w -> forallb (sound (e_exact E)) os = true ->
  match erun E os (bl_new w) with ORet _ _ => True | OPanic _ => False | OAbort => True | OUB => False end.
Proof. exact (fun E fr w os HE => no_ub E HE fr w os). Qed.
Print Assumptions C36_no_undefined_behaviour_partial.
Theorem C36_references_never_alias_partial : forall E fr w os s i j hi hj x,
  env_ok E -> arrives E fr w os s -> get i (bl_tab s) = Some hi -> get j (bl_tab s) = Some hj -> i <> j ->
  covers hi x -> covers hj x -> False.
Proof. exact (fun E fr w os s i j hi hj x HE => refs_apart E HE fr w os s i j hi hj x). Qed.
Print Assumptions C36_references_never_alias_partial.
Theorem C36_references_are_aligned_and_ours_partial : forall E fr w os s i h,
  env_ok E -> arrives E fr w os s -> get i (bl_tab s) = Some h ->
  h_ptr h mod h_align h = 0 /\ (forall x, covers h x -> 0 < x < e_amax E) /\ (forall x u, covers h x -> In u fr -> ~ in_u x u).
Proof. exact (fun E fr w os s i h HE => refs_placed E HE fr w os s i h). Qed.
Print Assumptions C36_references_are_aligned_and_ours_partial.
(** Every reference reads what was put in or written through it last. *)
Theorem C36_references_keep_their_values_partial : forall E fr w os s i h,
  env_ok E -> arrives E fr w os s -> get i (bl_tab s) = Some h ->
  exists vs, get i (fst (especs (e_bomb E) [] (bl_log s))) = Some (registered h, h_id h, vs) /\
    Z.of_nat (length vs) = h_cnt h /\
    forall j v, nth_error vs j = Some (Some v) -> nth_error (contents (mem_of s) h) j = Some (Some v).
Proof. exact (fun E fr w os s i h HE => refs_hold E HE fr w os s i h). Qed.
Print Assumptions C36_references_keep_their_values_partial.
(** A closure emplaces 77, then returns 5 for a [Result] that is 8 bytes longer
    than what was allocated for it: both references are alive, share bytes, and
    the first one reads 5. *)
Theorem C36_refuted : exists E w o s hi hj x,
  env_ok E /\ ready E [] w /\ legal o = true /\ erun E [o] (bl_new w) = ORet tt s /\
  bl_log s = [ENew false 1 [Some 77]; ENew false 1 [Some 5]] /\
  bl_tab s = [Some hi; Some hj] /\ covers hi x /\ covers hj x /\ contents (mem_of s) hi = [Some 5].
Proof. exact aliasing. Qed.
Print Assumptions C36_refuted.
Example C36_case :
  arrives Eo [] w0 usual (last_state w0 usual) /\
  shown (last_state w0 usual) = [(2, [Some 6]); (1, [Some 7]); (3, [Some 21; Some 22; Some 23]); (2, [Some 9])].
Proof. split; [apply last_arrives; [apply fresh_ready| |]|]; vm_compute; reflexivity. Qed.

(** ** C37 from_iter stores exactly the yielded elements in order *)

(** [items it] - what a fused iterator yields.  [holds_slice E s d T vals] - the last
    reference handed out reads [vals] and is registered for dropping if [d].
    Missing: allocators that return more than asked for, with dropping, and
    zero-sized elements; both are false. *)
Theorem C37_fused_partial : forall E fr w os s k tr T it s',
  env_ok E -> arrives E fr w os s ->
  let o := BFromIter k tr T it in
  sound (e_exact E) o = true -> legal o = true -> t_size T <> 0 -> fused it = true -> erun1 E o s = ORet tt s' ->
  (holds_slice E s' (dropping k T) T (items it) /\
   exists d, bl_log s' = bl_log s ++ d ++ [ENew (dropping k T && negb (is_nil (items it))) (t_id T) (map Some (items it))]) \/
  (tr = Try /\ exists d vals one, holds_slice E s' (dropping k T) T vals /\
     bl_log s' = bl_log s ++ d ++ EFail :: map (EBack (t_id T)) (opt_list one) /\
     exists used rest, outs_of it = used ++ rest /\ no_panic used /\ vals ++ opt_list one = somes used).
Proof. exact (fun E fr w os s k tr T it s' HE => collect_fused E HE fr w os s k tr T it s'). Qed.
Print Assumptions C37_fused_partial.
Theorem C37_refuted : exists E w k T it s h,
  env_ok E /\ ready E [] w /\ legal (BFromIter k Try T it) = true /\ t_size T <> 0 /\ fused it = true /\
  erun E [BFromIter k Try T it] (bl_new w) = ORet tt s /\ bl_tab s = [Some h] /\
  h_cnt h = 40 /\ length (items it) = 40%nat /\
  nth_error (items it) 17 = Some 18 /\ nth_error (contents (mem_of s) h) 17 = Some None /\
  erun E [BFromIter k Try T it; BReset] (bl_new w) = OUB.
Proof. exact elements_lost. Qed.
Print Assumptions C37_refuted.
Theorem C37_zero_sized_refuted : exists it s h,
  legal (BFromIter PutNoDrop Try unit_d it) = true /\ fused it = true /\ items it = [0; 0; 0] /\
  erun Eo [BFromIter PutNoDrop Try unit_d it] (bl_new w0) = ORet tt s /\ bl_tab s = [Some h] /\ h_cnt h = 0.
Proof. exact zero_sized_lost. Qed.
Print Assumptions C37_zero_sized_refuted.
Example C37_case :
  let o := BFromIter Put Try boxed (yields 2 (upto 40) done) in
  sound true o = true /\ legal o = true /\ fused (yields 2 (upto 40) done) = true /\ returns w0 [o] = true /\
  shown (last_state w0 [o]) = [(3, map Some (upto 40))].
Proof. vm_compute. auto. Qed.

(** ** C38 from_iter with arbitrary iterators *)

(** [outs_of it] - the results of the calls of [next], one by one; [somes] keeps the
    elements; [stopped used rest] - the last one was [None].  Missing: with
    dropping, iterators that resume after [None]. *)
Theorem C38_any_iterator_partial : forall E fr w os s k tr T it s',
  env_ok E -> arrives E fr w os s ->
  let o := BFromIter k tr T it in
  sound (e_exact E) o = true -> legal o = true -> t_size T <> 0 -> erun1 E o s = ORet tt s' ->
  exists used rest vals one,
    outs_of it = used ++ rest /\ no_panic used /\ vals ++ opt_list one = somes used /\
    holds_slice E s' (dropping k T) T vals /\
    ((one = None /\ stopped used rest) \/
     (tr = Try /\ exists d, bl_log s' = bl_log s ++ d ++ EFail :: map (EBack (t_id T)) (opt_list one))).
Proof. exact (fun E fr w os s k tr T it s' HE => collect_all E HE fr w os s k tr T it s'). Qed.
Print Assumptions C38_any_iterator_partial.
Theorem C38_refuted : exists k T it s h,
  legal (BFromIter k Try T it) = true /\ t_size T <> 0 /\
  erun Eo [BFromIter k Try T it] (bl_new w0) = ORet tt s /\ bl_tab s = [Some h] /\
  length (somes (outs_of it)) = 31%nat /\ h_cnt h = 31 /\
  nth_error (somes (outs_of it)) 17 = Some 18 /\ nth_error (contents (mem_of s) h) 17 = Some None /\
  erun Eo [BFromIter k Try T it; BReset] (bl_new w0) = OUB.
Proof. exact elements_lost_resuming. Qed.
Print Assumptions C38_refuted.
Example C38_case :
  let o := BFromIter PutNoDrop Try dropper stuttering in
  sound true o = true /\ legal o = true /\ fused stuttering = false /\ returns w0 [o] = true /\
  shown (last_state w0 [o]) = [(2, [Some 41; Some 42; Some 43])].
Proof. vm_compute. auto. Qed.

(** ** C39 Failed from_iter loses no element *)

(** For iterators that do not use the [Blink] themselves the log tells what was
    yielded: it is in the slice, or given back.  (For the others see C37, C38.) *)
Theorem C39_nothing_lost : forall E fr w os s k tr T it s',
  env_ok E -> arrives E fr w os s ->
  let o := BFromIter k tr T it in
  sound (e_exact E) o = true -> legal o = true -> t_size T <> 0 -> plain it = true -> erun1 E o s = ORet tt s' ->
  exists vals one,
    holds_slice E s' (dropping k T) T vals /\ (tr <> Try -> one = None) /\
    exists tail, (tail = [] /\ one = None \/ tr = Try /\ tail = EFail :: map (EBack (t_id T)) (opt_list one)) /\
    bl_log s' = bl_log s ++ map (EYield (t_id T)) (vals ++ opt_list one) ++
                [ENew (dropping k T && negb (is_nil vals)) (t_id T) (map Some vals)] ++ tail.
Proof. exact (fun E fr w os s k tr T it s' HE => collect_any E HE fr w os s k tr T it s'). Qed.
Print Assumptions C39_nothing_lost.
Example C39_case :
  arrives Es [] ws failing (last_state ws failing) /\
  bl_log (last_state ws failing) =
    [ENew true 2 [Some 5]] ++ map (EYield 2) (upto 36) ++ [ENew true 2 (map Some (upto 35)); EFail; EBack 2 36].
Proof. split; [apply last_arrives; [apply fresh_ready| |]|]; vm_compute; reflexivity. Qed.

(** ** C40 Zero-sized elements are dropped exactly once *)
Theorem C40_refuted : exists it s,
  legal (BFromIter Put Try unit_d it) = true /\
  erun Eo [BFromIter Put Try unit_d it; BReset] (bl_new w0) = ORet tt s /\
  bl_log s = [EYield 4 0; EEarly 4 0; EYield 4 0; EEarly 4 0; ENew true 4 [Some 0; Some 0]; EReset; EDrop 4 0; EDrop 4 0].
Proof. exact zero_sized_dropped_twice. Qed.
Print Assumptions C40_refuted.
(** And an empty iterator panics in a debug build. *)
Theorem C40_empty_refuted : exists s, legal (BFromIter Put Try unit_d done) = true /\
  erun1 Eo (BFromIter Put Try unit_d done) (bl_new w0) = OPanic s.
Proof. exact zero_sized_empty_panics. Qed.
Print Assumptions C40_empty_refuted.

(** ** C42 Iterator panic keeps collected elements owned *)

(** [kept E s T vals] - unless empty, they are behind a reference registered for
    dropping, so C31 applies.  The call of [next] number [length used] panicked
    itself or in its use of the [Blink]; or the size overflowed or
    [handle_alloc_error] unwinds; or a call of [size_hint] panicked.  In the last
    cases the element taken last is dropped at once. *)
Theorem C42_iterator_panics : forall E fr w os s k tr T it s',
  env_ok E -> arrives E fr w os s ->
  let o := BFromIter k tr T it in
  sound (e_exact E) o = true -> t_size T <> 0 -> dropping k T = true -> erun1 E o s = OPanic s' ->
  (exists used lo up body out rest, firstn (length used) (outs_of it) = used /\ no_panic used /\
     skip (length used) it = SNext lo up body out rest /\ (out = NPanic \/ body <> BNil) /\ kept E s' T (somes used)) \/
  (tr <> Try /\ exists used rest vals v, outs_of it = used ++ rest /\ no_panic used /\ somes used = vals ++ [v] /\
     kept E s' T vals /\ exists d, bl_log s' = bl_log s ++ d ++ [EEarly (t_id T) v]) \/
  (exists used rest, outs_of it = used ++ rest /\ no_panic used /\ somes used = [] /\
     (tr = Unwinds \/ tr = Aborts /\ 2 ^ 62 < Z.max (first_lower it) 8 * t_size T)) \/
  (exists used, firstn (length used) (outs_of it) = used /\ no_panic used /\ first_lower (skip (length used) it) = PANICS /\
     (somes used = [] \/
      exists vals v, somes used = vals ++ [v] /\ kept E s' T vals /\
        exists d d', bl_log s' = bl_log s ++ d ++ EEarly (t_id T) v :: d' /\
          (d' = [] \/ d' = [ENew true (t_id T) (map Some vals)]))).
Proof. exact (fun E fr w os s k tr T it s' HE => collect_panics E HE fr w os s k tr T it s'). Qed.
Print Assumptions C42_iterator_panics.
Example C42_case :
  sound true breaking = true /\ (exists s', erun1 Eo breaking (bl_new w0) = OPanic s') /\
  arrives Eo [] w0 [breaking; BReset] (last_state w0 [breaking; BReset]) /\
  bl_log (last_state w0 [breaking; BReset]) =
    [EYield 2 31; EYield 2 32; ENew true 2 [Some 31; Some 32]; EReset; EDrop 2 31; EDrop 2 32].
Proof.
  split; [reflexivity|]. split; [exact breaking_panics|].
  split; [apply last_arrives; [apply fresh_ready| |]|]; vm_compute; reflexivity.
Qed.

Example C42_case_size_hint :
  sound true hintless = true /\ legal hintless = true /\ (exists s', erun1 Eo hintless (bl_new w0) = OPanic s') /\
  arrives Eo [] w0 [hintless; BReset] (last_state w0 [hintless; BReset]) /\
  bl_log (last_state w0 [hintless; BReset]) =
    map (EYield 2) (upto 9) ++ [EEarly 2 9; ENew true 2 (map Some (upto 8)); EReset] ++ map (EDrop 2) (upto 8).
Proof.
  split; [reflexivity|]. split; [reflexivity|]. split; [exact hintless_panics|].
  split; [apply last_arrives; [apply fresh_ready| |]|]; vm_compute; reflexivity.
Qed.

(** ** C43 copy_slice and copy_str copy exactly *)
Theorem C43_copy : forall E fr w os s tr T vs s',
  env_ok E -> arrives E fr w os s ->
  legal (BCopy tr T vs) = true -> erun1 E (BCopy tr T vs) s = ORet tt s' ->
  (exists h, bl_tab s' = bl_tab s ++ [Some h] /\ h_id h = t_id T /\ h_ptr h mod h_align h = 0 /\ registered h = false /\
     contents (mem_of s') h = map Some vs /\
     (forall i hi x, get i (bl_tab s) = Some hi -> covers hi x -> ~ covers h x) /\
     (forall x u, covers h x -> In u fr -> ~ in_u x u)) \/
  (tr = Try /\ bl_log s' = bl_log s ++ [EFail] /\ bl_tab s' = bl_tab s /\ bl_root s' = bl_root s).
Proof. exact (fun E fr w os s tr T vs s' HE => copy_fresh E HE fr w os s tr T vs s'). Qed.
Print Assumptions C43_copy.
(** It panics only when memory is exhausted and [handle_alloc_error] unwinds. *)
Theorem C43_panics : forall E fr w os s tr T vs s',
  env_ok E -> arrives E fr w os s -> erun1 E (BCopy tr T vs) s = OPanic s' ->
  tr = Unwinds /\ bl_log s' = bl_log s /\ bl_tab s' = bl_tab s /\ bl_root s' = bl_root s.
Proof. exact (fun E fr w os s tr T vs s' HE => copy_panics E HE fr w os s tr T vs s'). Qed.
Print Assumptions C43_panics.
Example C43_case :
  legal (BCopy Try u64 [1; 2; 3]) = true /\
  arrives Eo [] w0 (usual ++ [BCopy Try u64 [1; 2; 3]]) (last_state w0 (usual ++ [BCopy Try u64 [1; 2; 3]])) /\
  shown (last_state w0 (usual ++ [BCopy Try u64 [1; 2; 3]])) = shown (last_state w0 usual) ++ [(1, [Some 1; Some 2; Some 3])] /\
  bl_log (last_state ws failing_copy) = [ENew false 1 [Some 5]; EFail].
Proof. split; [reflexivity|]. split; [apply last_arrives; [apply fresh_ready| |]|split]; vm_compute; reflexivity. Qed.

(** ** C44 Blink over a shared reference *)

(** [reset] then leaves the allocator and all memory as they are; *)
Theorem C44_reset_leaves_allocator : forall E s, e_reset E = ret tt ->
  match erun1 E BReset s with ORet _ s' | OPanic s' => bl_w s' = bl_w s | _ => True end.
Proof. exact shared_reset. Qed.
Print Assumptions C44_reset_leaves_allocator.
(** and no program touches the blocks of others. *)
Theorem C44_others_untouched : forall E fr w os s,
  env_ok E -> arrives E fr w os s -> forall u x, In u fr -> in_u x u -> mem_of s x = al_mem (e_A E) w x.
Proof. exact (fun E fr w os s HE => others_untouched E HE fr w os s). Qed.
Print Assumptions C44_others_untouched.
Example C44_case :
  length (live (c_tab others)) = 2%nat /\
  arrives others_env (live (c_tab others)) wo (usual ++ [BReset]) (last_state wo (usual ++ [BReset])) /\
  bl_log (last_state wo (usual ++ [BReset])) = bl_log (last_state w0 (usual ++ [BReset])).
Proof. split; [vm_compute; reflexivity|]. split; [apply last_arrives; [apply others_ready| |]|]; vm_compute; reflexivity. Qed.

(** ** C50 A panicking closure leaves nothing behind *)

(** Only what its own body did stays: nothing is registered or handed out for the
    value that was to be emplaced.  Or memory is exhausted and [handle_alloc_error]
    unwinds, when the value is dropped at once. *)
Theorem C50_closure_panics : forall E s k tr T r e body out s',
  erun1 E (BEmplace k tr T r e body out) s = OPanic s' ->
  (unchanged s s' \/
   exists s1 s2, unchanged s s1 /\
    (brun (e_A E) (e_reset E) (e_dbg E) (e_bomb E) body s1 = ORet tt s2 \/
     brun (e_A E) (e_reset E) (e_dbg E) (e_bomb E) body s1 = OPanic s2) /\ unchanged s2 s') \/
  (tr = Unwinds /\ bl_tab s' = bl_tab s /\ bl_root s' = bl_root s /\
   bl_log s' = bl_log s ++ match out with COk v => if t_drop T then [EEarly (t_id T) v] else [] | _ => [] end).
Proof. exact emplace_panics. Qed.
Print Assumptions C50_closure_panics.
Example C50_case :
  bl_log (last_state w0 [BEmplace Put Try dropper plainr plainr (BCons (put dropper 4) BNil) CPanic; put dropper 6; BReset]) =
    [ENew true 2 [Some 4]; ENew true 2 [Some 6]; EReset; EDrop 2 6; EDrop 2 4].
Proof. vm_compute. reflexivity. Qed.

(** ** C65 Dropping a [Blink] returns all memory, whatever its destructors do *)

(** [owned_gone] - dropping a [Blink] that owns its [BlinkAlloc].  The values are dropped as by
    [drop_all] ([clean], [due] as in C34), and no block of the underlying allocator is left,
    also when a destructor panics; two panics in one slice abort. *)
Theorem C65_everything_returned : forall su bomb fr w os s,
  setup_ok su -> ISIZE_MAX <= su_smax su -> arrives (owned su bomb) fr w os s ->
  match owned_gone su bomb s with
  | ORet _ s' => clean (owned su bomb) s s' /\ left_over s' = [] /\ bads bomb (due (owned su bomb) s) = 0%nat
  | OPanic s' => clean (owned su bomb) s s' /\ left_over s' = [] /\ bads bomb (due (owned su bomb) s) = 1%nat
  | OAbort => (2 <= bads bomb (due (owned su bomb) s))%nat
  | OUB => False
  end.
Proof. exact (fun su bomb fr w os s Hok Hs => owned_gone_ok su bomb Hok Hs fr w os s). Qed.
Print Assumptions C65_everything_returned.

(** A [Blink] over a borrowed [BlinkAlloc] leaves the allocator as it is. *)
Theorem C65_borrowed_untouched : forall su bomb fr w os s,
  setup_ok su -> ISIZE_MAX <= su_smax su -> arrives (borrowed su bomb) fr w os s ->
  match borrowed_gone su bomb s with
  | ORet _ s' => clean (borrowed su bomb) s s' /\ bl_w s' = bl_w s /\ bads bomb (due (borrowed su bomb) s) = 0%nat
  | OPanic s' => clean (borrowed su bomb) s s' /\ bl_w s' = bl_w s /\ bads bomb (due (borrowed su bomb) s) = 1%nat
  | OAbort => (2 <= bads bomb (due (borrowed su bomb) s))%nat
  | OUB => False
  end.
Proof. exact (fun su bomb fr w os s Hok Hs => borrowed_gone_ok su bomb Hok Hs fr w os s). Qed.
Print Assumptions C65_borrowed_untouched.

(** One chunk is held; the destructor of the payload 13 panics; everything is returned. *)
Example C65_case :
  arrives Eb [] wb risky (last_state wb risky) /\
  length (outstanding (bw_trace (snd (bl_w (last_state wb risky))))) = 1%nat /\
  at_end (owned_gone (big megabytes) unlucky (last_state wb risky)) =
    Some (true, bl_log (last_state wb risky) ++ [EReset; EDrop 2 9; EDrop 2 1; EDrop 2 13; EDrop 2 2], 0%nat).
Proof.
  split; [apply last_arrives; [apply fresh_ready| |]; vm_compute; reflexivity|]. split; vm_compute; reflexivity.
Qed.
