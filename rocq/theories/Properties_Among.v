(** Properties C69 and C70: a [Blink] on an allocator that others use at the same time.

    Vocabulary (Among.v, Crowd.v; [env], [arrives], [ready], [sound] as in Properties_Blink.v).
    [among E] - the allocator of [E], but before and after each call of the [Blink] others
    run the next of a given list of programs on it ([joined w todo]: they start with [todo] and
    without blocks): allocations, resizes, deallocations and writes, limited to their own
    blocks, in whatever order, at whatever length.  [n_cst] has their blocks, [n_ops] and
    [n_res] what they did so far and the lengths they got.

    [gathers E fr w xs c] - any number of [Blink]s that share the allocator; [xs] creates
    and drops them and runs operations on them, [seen E c k] is the state of the [k]-th. *)
From Verif Require Import Base BaseFacts Alloc AllocFacts Arena BlinkAlloc History HistoryFacts Setup SetupFacts Concrete
  Blink BlinkInv BlinkReset BlinkIter BlinkMain BlinkEnv BlinkProps BlinkDemo Among AmongFacts Crowd CrowdFacts AmongDemo.

(** ** C69 A Blink among other users of its allocator *)

(** An allocator remains one when others use it, so that all theorems of Properties_Blink.v
    hold in their presence, whatever they do. *)
Theorem C69_still_an_allocator : forall E, env_ok E -> e_shared E = true -> env_ok (among E).
Proof. exact among_ok. Qed.
Print Assumptions C69_still_an_allocator.
Theorem C69_whatever_they_do : forall E fr w todo, e_shared E = true -> ready E fr w -> ready (among E) fr (joined w todo).
Proof. exact (fun E fr w todo Hs => joined_ready E Hs fr w todo). Qed.
Print Assumptions C69_whatever_they_do.

(** In particular: no undefined behaviour, on either side; *)
Theorem C69_no_undefined_behaviour : forall E fr w os,
  env_ok (among E) -> ready (among E) fr w -> forallb (sound (e_exact E)) os = true ->
  match erun (among E) os (bl_new w) with ORet _ _ => True | OPanic _ => False | OAbort => True | OUB => False end.
Proof. exact (fun E fr w os HE => no_ub (among E) HE fr w os). Qed.
Print Assumptions C69_no_undefined_behaviour.
(** every reference reads what was put in or written through it last; *)
Theorem C69_references_keep_their_values : forall E fr w os s i h,
  env_ok (among E) -> arrives (among E) fr w os s -> get i (bl_tab s) = Some h ->
  exists vs, get i (fst (especs (e_bomb E) [] (bl_log s))) = Some (registered h, h_id h, vs) /\
    Z.of_nat (length vs) = h_cnt h /\
    forall j v, nth_error vs j = Some (Some v) -> nth_error (contents (al_mem (e_A E) (c_w (n_cst (bl_w s)))) h) j = Some (Some v).
Proof. exact (fun E fr w os s i h HE => refs_hold (among E) HE fr w os s i h). Qed.
Print Assumptions C69_references_keep_their_values.
(** all destructors that ever ran are those the history calls for; *)
Theorem C69_whole_history : forall E fr w os s,
  env_ok (among E) -> arrives (among E) fr w os s -> drops_of (bl_log s) = snd (especs (e_bomb E) [] (bl_log s)).
Proof. exact (fun E fr w os s HE Ha => eq_sym (all_drops (among E) HE fr w os s Ha)). Qed.
Print Assumptions C69_whole_history.

(** and the others find in their blocks what they wrote last: memory agrees with independent
    buffers that know nothing of the [Blink] ([srun], [agrees]: History.v). *)
Theorem C69_others_keep_their_values : forall E fr w os s,
  env_ok E -> e_shared E = true -> arrives (among E) fr w os s ->
  agrees (al_mem (e_A E) (c_w (n_cst (bl_w s)))) (c_tab (n_cst (bl_w s))) (srun (n_ops (bl_w s)) (n_res (bl_w s)) []).
Proof. exact (fun E fr w os s HE Hs => others_fare E HE Hs fr w os s). Qed.
Print Assumptions C69_others_keep_their_values.
(** No reference shares a byte with a block of the others. *)
Theorem C69_nothing_in_common : forall E fr w os s i h j u x,
  env_ok E -> e_shared E = true -> arrives (among E) fr w os s -> get i (bl_tab s) = Some h ->
  get j (c_tab (n_cst (bl_w s))) = Some u -> covers h x -> ~ in_u x u.
Proof. exact (fun E fr w os s i h j u x HE Hs => refs_apart_other E HE Hs fr w os s i h j u x). Qed.
Print Assumptions C69_nothing_in_common.

(** Others allocate two blocks, write to them, grow one and free the other, and get a third one,
    while the [Blink] puts in its values. *)
Example C69_case :
  let os := usual ++ [BReset; put u64 3] in
  let s := last_state (E := among others_env) wn os in
  env_ok (among others_env) /\ arrives (among others_env) (live (c_tab others)) wn os s /\
  bl_log s = bl_log (last_state wo os) /\ shown s = [(1, [Some 3])] /\ n_todo (bl_w s) = [] /\
  n_ops (bl_w s) = filter not_reset (concat busy) /\ n_res (bl_w s) = [Some 24; None; Some 16; Some 48; None; Some 100; None; None] /\
  peek (e_A others_env) (bl_w s) [(0%nat, 0); (0%nat, 1); (1%nat, 3); (2%nat, 99)] = [Some (Byte 9); Some (Byte 8); None; Some (Byte 7)].
Proof.
  cbv zeta. split; [apply among_ok; [apply others_env_ok|reflexivity]|].
  split; [apply last_arrives; [apply wn_ready| |]; vm_compute; reflexivity|].
  split; [vm_compute; reflexivity|]. split; [vm_compute; reflexivity|]. split; [vm_compute; reflexivity|].
  split; [vm_compute; reflexivity|]. split; vm_compute; reflexivity.
Qed.

(** ** C70 Several Blinks on one allocator *)

(** They come and go and use it in turn: no undefined behaviour; *)
Theorem C70_no_undefined_behaviour : forall E fr w xs,
  env_ok E -> ready E fr w -> e_shared E = true -> forallb (crowd_sound E) xs = true ->
  match crowd_run E xs (mkCrowd w []) with ORet _ _ => True | OPanic _ => False | OAbort => True | OUB => False end.
Proof. exact (fun E fr w xs HE => crowd_no_ub E HE fr w xs). Qed.
Print Assumptions C70_no_undefined_behaviour.
(** the references of each read what was put in or written through it last, also after others
    were reset or dropped; *)
Theorem C70_references_keep_their_values : forall E fr w xs c k s i h,
  env_ok E -> gathers E fr w xs c -> seen E c k = Some s -> get i (bl_tab s) = Some h ->
  exists vs, get i (fst (especs (e_bomb E) [] (bl_log s))) = Some (registered h, h_id h, vs) /\
    Z.of_nat (length vs) = h_cnt h /\
    forall j v, nth_error vs j = Some (Some v) -> nth_error (contents (al_mem (e_A E) (cr_w c)) h) j = Some (Some v).
Proof. exact (fun E fr w xs c k s i h HE => crowd_hold' E HE fr w xs c k s i h). Qed.
Print Assumptions C70_references_keep_their_values.
(** no two references share a byte, of the same or of different [Blink]s; *)
Theorem C70_references_never_alias : forall E fr w xs c k l s t i j hi hj x,
  env_ok E -> gathers E fr w xs c -> seen E c k = Some s -> seen E c l = Some t ->
  get i (bl_tab s) = Some hi -> get j (bl_tab t) = Some hj -> k <> l \/ i <> j -> covers hi x -> covers hj x -> False.
Proof. exact (fun E fr w xs c k l s t i j hi hj x HE => crowd_apart_any E HE fr w xs c k l s t i j hi hj x). Qed.
Print Assumptions C70_references_never_alias.
(** each drops its own values, when the history of this one calls for it, *)
Theorem C70_whole_history : forall E fr w xs c k s,
  env_ok E -> gathers E fr w xs c -> seen E c k = Some s -> drops_of (bl_log s) = snd (especs (e_bomb E) [] (bl_log s)).
Proof. exact (fun E fr w xs c k s HE => crowd_drops E HE fr w xs c k s). Qed.
Print Assumptions C70_whole_history.
(** and has dropped each exactly once when it is gone; *)
Theorem C70_exactly_once : forall E fr w xs c k s i,
  env_ok E -> gathers E fr w xs c -> seen E c k = Some s -> still_there E c k = false -> (forall id v, e_bomb E id v = false) ->
  drop_n i (bl_log s) = new_n i (bl_log s).
Proof. exact (fun E fr w xs c k s i HE => crowd_once E HE fr w xs c k s i). Qed.
Print Assumptions C70_exactly_once.
(** blocks of others are left alone. *)
Theorem C70_others_untouched : forall E fr w xs c,
  env_ok E -> gathers E fr w xs c -> forall u x, In u fr -> in_u x u -> al_mem (e_A E) (cr_w c) x = al_mem (e_A E) w x.
Proof. exact (fun E fr w xs c HE => crowd_others E HE fr w xs c). Qed.
Print Assumptions C70_others_untouched.

(** Two [Blink]s; the first one is dropped, a third one comes, the second one is reset.  The same
    with others at work. *)
Example C70_case :
  gathers others_env (live (c_tab others)) wo meeting (crowd_last (E := others_env) wo meeting) /\
  gathers (among others_env) (live (c_tab others)) wn meeting (crowd_last (E := among others_env) wn meeting) /\
  crowd_shown (crowd_last (E := others_env) wo meeting) = meeting_result /\
  crowd_shown (crowd_last (E := among others_env) wn meeting) = meeting_result.
Proof.
  split; [apply crowd_last_gathers; [apply others_ready|reflexivity| |]; vm_compute; reflexivity|].
  split; [apply crowd_last_gathers; [apply wn_ready|reflexivity| |]; vm_compute; reflexivity|].
  split; vm_compute; reflexivity.
Qed.
