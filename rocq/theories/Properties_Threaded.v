(** Property C73: a [Blink] on a [SyncBlinkAlloc] that other threads use at the same time.

    Vocabulary (Threaded.v; [env], [arrives], [ready], [sound] as in Properties_Blink.v; [creached],
    [crun], [lin_ops], [follows] as in Properties_Conc.v).  [threading su t bomb] - the allocator as
    thread [t] uses it: each call is a sequence of steps of the machine of Conc.v, and before each
    of them the other threads make steps of theirs, as [t_todo] says; nothing is assumed of it.
    [t_mine] has the handles of the blocks of the [Blink], [t_log] what has happened since the
    allocator was new. *)
From Verif Require Import Base BaseFacts Alloc AllocFacts Arena BlinkAlloc History HistoryFacts Setup SetupFacts Concrete
  Conc ConcFacts ConcSteps ConcProps ConcDemo Blink BlinkInv BlinkReset BlinkIter BlinkMain BlinkEnv BlinkProps BlinkDemo
  Threaded ThreadedContract ThreadedDemo.

(** ** C73 A Blink among threads *)

(** Whatever the other threads do in the middle of calls, the allocator keeps the contract of
    [Allocator] towards this one, and gives exactly the length asked for.  So all theorems of
    Properties_Blink.v hold. *)
Theorem C73_still_an_allocator : forall su t bomb,
  setup_ok su -> ISIZE_MAX <= su_smax su -> env_ok (threading su t bomb).
Proof. exact threading_ok. Qed.
Print Assumptions C73_still_an_allocator.
(** The [Blink] may be created at any moment, and the future may be any. *)
Theorem C73_at_any_moment : forall su t bomb n sched es g todo,
  setup_ok su -> crun su sched (cstart su n) = ORet es g -> nth_error (g_thr g) t = Some Idle ->
  ready (threading su t bomb) [] (mkT g [] es todo).
Proof. exact threading_ready. Qed.
Print Assumptions C73_at_any_moment.

(** In particular: no undefined behaviour, no call that does not return; *)
Theorem C73_no_undefined_behaviour : forall su t bomb fr w os,
  setup_ok su -> ISIZE_MAX <= su_smax su -> ready (threading su t bomb) fr w -> forallb (sound true) os = true ->
  match erun (threading su t bomb) os (bl_new w) with ORet _ _ => True | OPanic _ => False | OAbort => True | OUB => False end.
Proof. exact (fun su t bomb fr w os Hok Hs => no_ub (threading su t bomb) (threading_ok su t bomb Hok Hs) fr w os). Qed.
Print Assumptions C73_no_undefined_behaviour.
(** every reference reads what was put in or written through it last; *)
Theorem C73_references_keep_their_values : forall su t bomb fr w os s i h,
  setup_ok su -> ISIZE_MAX <= su_smax su -> arrives (threading su t bomb) fr w os s -> get i (bl_tab s) = Some h ->
  exists vs, get i (fst (especs bomb [] (bl_log s))) = Some (registered h, h_id h, vs) /\
    Z.of_nat (length vs) = h_cnt h /\
    forall j v, nth_error vs j = Some (Some v) -> nth_error (contents (bw_mem (snd (g_aw (t_g (bl_w s))))) h) j = Some (Some v).
Proof. exact (fun su t bomb fr w os s i h Hok Hs => refs_hold (threading su t bomb) (threading_ok su t bomb Hok Hs) fr w os s i h). Qed.
Print Assumptions C73_references_keep_their_values.
(** all destructors that ever ran are those the history of the [Blink] calls for. *)
Theorem C73_whole_history : forall su t bomb fr w os s,
  setup_ok su -> ISIZE_MAX <= su_smax su -> arrives (threading su t bomb) fr w os s ->
  drops_of (bl_log s) = snd (especs bomb [] (bl_log s)).
Proof. exact (fun su t bomb fr w os s Hok Hs Ha => eq_sym (all_drops (threading su t bomb) (threading_ok su t bomb Hok Hs) fr w os s Ha)). Qed.
Print Assumptions C73_whole_history.

(** The other threads find in each of their blocks what the operations, in the order in which
    they took effect, make of independent buffers ([srun]: History.v); *)
Theorem C73_others_keep_their_values : forall su t bomb fr w os s h u,
  setup_ok su -> ISIZE_MAX <= su_smax su -> arrives (threading su t bomb) fr w os s ->
  get h (g_tab (t_g (bl_w s))) = Some u -> ~ In h (t_mine (bl_w s)) ->
  exists b, get h (srun (lin_ops (t_log (bl_w s))) (map (option_map b_len) (lin_results (t_log (bl_w s)))) []) = Some b /\
    buf_agrees (bw_mem (snd (g_aw (t_g (bl_w s))))) u b.
Proof. exact (fun su t bomb fr w os s h u Hok Hs => others_hold su t bomb Hok Hs fr w os s h u). Qed.
Print Assumptions C73_others_keep_their_values.
(** each call of each thread takes effect once, between its beginning and its return; *)
Theorem C73_calls_in_order : forall su t bomb fr w os s t',
  setup_ok su -> ISIZE_MAX <= su_smax su -> arrives (threading su t bomb) fr w os s ->
  (t' < length (g_thr (t_g (bl_w s))))%nat ->
  exists ph, follows t' PIdle (t_log (bl_w s)) ph /\ (ph = PIdle <-> nth_error (g_thr (t_g (bl_w s))) t' = Some Idle).
Proof. exact (fun su t bomb fr w os s t' Hok Hs => in_order su t bomb Hok Hs fr w os s t'). Qed.
Print Assumptions C73_calls_in_order.
(** no reference shares a byte with a block of another thread. *)
Theorem C73_nothing_in_common : forall su t bomb fr w os s i r h u x,
  setup_ok su -> ISIZE_MAX <= su_smax su -> arrives (threading su t bomb) fr w os s -> get i (bl_tab s) = Some r ->
  get h (g_tab (t_g (bl_w s))) = Some u -> ~ In h (t_mine (bl_w s)) -> covers r x -> ~ in_u x u.
Proof. exact (fun su t bomb fr w os s i r h u x Hok Hs => refs_apart_theirs su t bomb Hok Hs fr w os s i r h u x). Qed.
Print Assumptions C73_nothing_in_common.

(** Thread 2 wins a race against the first call of the [Blink]; thread 0 is in the middle of
    copying its block when this call returns; later it has the bytes it wrote, and the [Blink]
    has done the same as alone. *)
Example C73_case :
  let os := usual ++ [BReset; put u64 3] in
  let s1 := last_state (E := Et) wt [put dropper 5] in
  let s := last_state (E := Et) wt os in
  env_ok Et /\ ready Et [] wt /\ arrives Et [] wt os s /\
  g_thr (t_g wt) = [Idle; Idle; Cas (JAlloc (La 24 8)) 1048576 1048624] /\
  g_thr (t_g (bl_w s1)) =
    [Copy (JResize 0 (mkU 1048608 16 (La 16 8)) (La 16 8) (La 48 8)) (mkBlock 1048648 48) 12 false; Idle; WantRead (JAlloc (La 8 1))] /\
  bl_log s = bl_log (last_state (E := others_env) wo os) /\ shown s = [(1, [Some 3])] /\ t_mine (bl_w s) = [7; 6; 5; 4; 2]%nat /\
  map (fun h => get h (g_tab (t_g (bl_w s)))) [0; 1; 3]%nat = [Some (mkU 1048648 48 (La 48 8)); None; Some (mkU 1048728 8 (La 8 1))] /\
  map (fun i => bw_mem (snd (g_aw (t_g (bl_w s)))) (1048648 + i)) [0; 1; 20] = [Byte 5; Byte 6; Byte 7].
Proof.
  cbv zeta. split; [apply threading_ok; [apply big_ok|cbn; lia]|]. split; [apply wt_ready|].
  split; [apply last_arrives; [apply wt_ready| |]; vm_compute; reflexivity|].
  split; [vm_compute; reflexivity|]. split; [vm_compute; reflexivity|]. split; [vm_compute; reflexivity|].
  split; [vm_compute; reflexivity|]. split; [vm_compute; reflexivity|]. split; vm_compute; reflexivity.
Qed.
