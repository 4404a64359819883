(** Property C80: what unwritten memory contains never matters.

    In all other files fresh and freed memory is [Undef], and reading it is undefined behaviour.  On a
    machine it contains something.

    Vocabulary (Dirty.v).  [grimy dbg bmax S low high ls] - a tower of [BlinkAlloc]s (Tower.v); fresh and
    freed memory of the bottom allocator contains what [low] says, the memory that a [BlinkAlloc]
    hands out what [high] says, which both may depend on all that happened before.  [grimy_start m ls] -
    nothing is allocated yet, the memory contains [m].  [grimy_run] - a history of a client of the topmost
    [BlinkAlloc]; [grimy_blink] - a program with a [Blink] that owns it, or (true) has a reference to it.
    [blank], [blanks] - [Undef] everywhere.  [same_tower] - the same arenas, the same calls of the bottom
    allocator, and the second memory contains at least what the first one does ([agreeing]). *)
From Verif Require Import Base BaseFacts Alloc AllocFacts Arena ArenaFacts BlinkAlloc History HistoryFacts Setup SetupFacts Concrete Tower
  Blink BlinkInv BlinkEnv BlinkYield BlinkProps BlinkDemo Proxy ProxyProps ProxyDemo Global GlobalProps GlobalDemo Param Dirty DirtyFacts DirtyProps DirtyDemo.

(** ** C80 What unwritten memory contains never matters *)

(** To no history of a client: with [Undef] for all that was not written it returns, and with anything
    else the results are the same, *)
Theorem C80_histories : forall dbg bmax S amax l ls low high m ops,
  0 <= amax <= USIZE_MAX -> amax <= bmax -> honest amax S -> tower_ok dbg bmax amax (l :: ls) ->
  exists rs st0 st, grimy_run dbg bmax S blank blanks (l :: ls) ops (mkCst [] (grimy_start (fun _ => Undef) (l :: ls))) = ORet rs st0 /\
    grimy_run dbg bmax S low high (l :: ls) ops (mkCst [] (grimy_start m (l :: ls))) = ORet rs st /\
    c_tab st = c_tab st0 /\ same_tower (l :: ls) (c_w st0) (c_w st).
Proof. exact (fun dbg bmax S amax l ls low high m ops Ha Hb Hh H => histories_same dbg bmax S amax Ha Hb Hh l ls low high m ops H). Qed.
Print Assumptions C80_histories.
(** and they are those of the model used everywhere else, in which a [BlinkAlloc] hands out memory with
    what was there before. *)
Theorem C80_histories_as_before : forall dbg bmax S amax l ls ops,
  0 <= amax <= USIZE_MAX -> amax <= bmax -> honest amax S -> tower_ok dbg bmax amax (l :: ls) ->
  exists rs st0 st, grimy_run dbg bmax S blank blanks (l :: ls) ops (mkCst [] (grimy_start (fun _ => Undef) (l :: ls))) = ORet rs st0 /\
    run (lv_smax l) (tower dbg bmax S (l :: ls)) (tower_reset dbg bmax S (l :: ls)) ops (mkCst [] (tower_start (l :: ls))) = ORet rs st /\
    c_tab st = c_tab st0 /\ same_tower (l :: ls) (c_w st0) (c_w st).
Proof. exact (fun dbg bmax S amax l ls ops Ha Hb Hh H => histories_as_before dbg bmax S amax Ha Hb Hh l ls ops H). Qed.
Print Assumptions C80_histories_as_before.
Example C80_histories_case : tower_ok true USIZE_MAX (2 ^ 47) storeys /\ honest (2 ^ 47) (checked (2 ^ 47) megabytes) /\
  forall low high m, exists st, runs_on low high m =
    ORet [Some (mkBlock 1048640 16); None; Some (mkBlock 1048640 40); Some (mkBlock 2097216 600); None; Some (mkBlock 2097816 24)] st.
Proof. split; [exact storeys_ok|]. split; [apply checked_honest|]. exact any_dirt. Qed.

(** To no program with a [Blink]: it is the same log, the same references, the same calls. *)
Theorem C80_blinks : forall dbg bmax S amax shared bomb l ls low high m ops rs st0 st os,
  0 <= amax <= USIZE_MAX -> amax <= bmax -> honest amax S -> tower_ok dbg bmax amax (l :: ls) -> ISIZE_MAX <= lv_smax l <= USIZE_MAX ->
  forallb (sound true) os = true ->
  grimy_run dbg bmax S blank blanks (l :: ls) ops (mkCst [] (grimy_start (fun _ => Undef) (l :: ls))) = ORet rs st0 ->
  grimy_run dbg bmax S low high (l :: ls) ops (mkCst [] (grimy_start m (l :: ls))) = ORet rs st ->
  match grimy_blink dbg bmax S blank blanks shared bomb (l :: ls) os (bl_new (c_w st0)) with
  | ORet _ s0 => exists s, grimy_blink dbg bmax S low high shared bomb (l :: ls) os (bl_new (c_w st)) = ORet tt s /\
      bl_log s = bl_log s0 /\ bl_tab s = bl_tab s0 /\ bl_root s = bl_root s0 /\ same_tower (l :: ls) (bl_w s0) (bl_w s)
  | OAbort => grimy_blink dbg bmax S low high shared bomb (l :: ls) os (bl_new (c_w st)) = OAbort
  | _ => False
  end.
Proof.
  exact (fun dbg bmax S amax shared bomb l ls low high m ops rs st0 st os Ha Hb Hh H => blinks_same dbg bmax S amax Ha Hb Hh shared bomb l ls low high m ops rs st0 st os H).
Qed.
Print Assumptions C80_blinks.
Theorem C80_blinks_as_before : forall dbg bmax S amax (shared : bool) bomb l ls ops rs st0 st os,
  0 <= amax <= USIZE_MAX -> amax <= bmax -> honest amax S -> tower_ok dbg bmax amax (l :: ls) -> ISIZE_MAX <= lv_smax l <= USIZE_MAX ->
  forallb (sound true) os = true ->
  grimy_run dbg bmax S blank blanks (l :: ls) ops (mkCst [] (grimy_start (fun _ => Undef) (l :: ls))) = ORet rs st0 ->
  run (lv_smax l) (tower dbg bmax S (l :: ls)) (tower_reset dbg bmax S (l :: ls)) ops (mkCst [] (tower_start (l :: ls))) = ORet rs st ->
  let before := bmain (tower dbg bmax S (l :: ls)) (if shared then ret tt else tower_reset dbg bmax S (l :: ls) true) dbg bomb os (bl_new (c_w st)) in
  match grimy_blink dbg bmax S blank blanks shared bomb (l :: ls) os (bl_new (c_w st0)) with
  | ORet _ s0 => exists s, before = ORet tt s /\
      bl_log s = bl_log s0 /\ bl_tab s = bl_tab s0 /\ bl_root s = bl_root s0 /\ same_tower (l :: ls) (bl_w s0) (bl_w s)
  | OAbort => before = OAbort
  | _ => False
  end.
Proof.
  exact (fun dbg bmax S amax shared bomb l ls ops rs st0 st os Ha Hb Hh H => blinks_as_before dbg bmax S amax Ha Hb Hh shared bomb l ls ops rs st0 st os H).
Qed.
Print Assumptions C80_blinks_as_before.
(** The references read what was put in, not what was there. *)
Theorem C80_references : forall dbg bmax S amax shared bomb l ls low high m ops rs st os s i h,
  0 <= amax <= USIZE_MAX -> amax <= bmax -> honest amax S -> tower_ok dbg bmax amax (l :: ls) -> ISIZE_MAX <= lv_smax l <= USIZE_MAX ->
  forallb (sound true) os = true ->
  grimy_run dbg bmax S low high (l :: ls) ops (mkCst [] (grimy_start m (l :: ls))) = ORet rs st ->
  grimy_blink dbg bmax S low high shared bomb (l :: ls) os (bl_new (c_w st)) = ORet tt s -> get i (bl_tab s) = Some h ->
  exists vs, get i (fst (especs bomb [] (bl_log s))) = Some (registered h, h_id h, vs) /\ Z.of_nat (length vs) = h_cnt h /\
    forall j v, nth_error vs j = Some (Some v) -> nth_error (contents (al_mem (grimy dbg bmax S low high (l :: ls)) (bl_w s)) h) j = Some (Some v).
Proof.
  exact (fun dbg bmax S amax shared bomb l ls low high m ops rs st os s i h Ha Hb Hh H => dirty_refs dbg bmax S amax Ha Hb Hh shared bomb l ls low high m ops rs st os s i h H).
Qed.
Print Assumptions C80_references.
(** Directly on the bottom allocator. *)
Theorem C80_blinks_on_bottom : forall dbg bmax S amax bomb low high m os,
  0 <= amax <= USIZE_MAX -> amax <= bmax -> honest amax S -> ISIZE_MAX <= bmax <= USIZE_MAX -> forallb (sound false) os = true ->
  match grimy_blink dbg bmax S blank blanks true bomb [] os (bl_new (mkB (fun _ => Undef) [])) with
  | ORet _ s0 => exists s, grimy_blink dbg bmax S low high true bomb [] os (bl_new (mkB m [])) = ORet tt s /\
      bl_log s = bl_log s0 /\ bl_tab s = bl_tab s0 /\ bl_root s = bl_root s0 /\ same_base (bl_w s0) (bl_w s)
  | OAbort => grimy_blink dbg bmax S low high true bomb [] os (bl_new (mkB m [])) = OAbort
  | _ => False
  end.
Proof. exact (fun dbg bmax S amax bomb low high m os Ha Hb Hh => blinks_same_bottom dbg bmax S amax Ha Hb Hh bomb low high m os). Qed.
Print Assumptions C80_blinks_on_bottom.
(** In the end all of the first 1000 bytes contain something; without the dirt, what was written does. *)
Example C80_blinks_case :
  forallb (sound true) twice = true /\ ISIZE_MAX <= lv_smax (hd (mkLevel 0 0) storeys) <= USIZE_MAX /\
  seen (blink_runs grit dust mud) = seen (blink_runs blank blanks (fun _ => Undef)) /\
  fst (seen (blink_runs grit dust mud)) = [(2, [Some 1]); (1, [Some 2]); (2, [Some 3]); (3, [Some 4]); (2, [Some 5; Some 6; Some 8])] /\
  filled (blink_runs grit dust mud) = 1000%nat /\ filled (blink_runs blank blanks (fun _ => Undef)) <> 1000%nat.
Proof.
  split; [vm_compute; reflexivity|]. split; [split; discriminate|]. split; [vm_compute; reflexivity|]. split; [vm_compute; reflexivity|].
  split; [vm_compute; reflexivity|]. vm_compute. discriminate.
Qed.
(** A program that reads what it has not written would be noticed. *)
Example C80_case_noticed : peeks blank = OUB /\ value_of (peeks grit) = 32505856 /\ value_of (peeks (fun _ => mud)) = - 2 ^ 20.
Proof. split; [vm_compute; reflexivity|]. split; vm_compute; reflexivity. Qed.

(** On any allocator: with any dirt in what it hands out it keeps its contract, so that all
    theorems about [Blink]s apply. *)
Theorem C80_any_allocator : forall E dirt, env_ok E -> env_ok (soiled E dirt).
Proof. exact soiled_ok. Qed.
Print Assumptions C80_any_allocator.
Example C80_any_allocator_case : env_ok Eo. Proof. apply own_env_ok. Qed.

(** To no history of a shared allocator and its proxies. *)
Theorem C80_proxies : forall su psmax nmax os, proxies_ok su psmax nmax -> exists rs s0,
  dirty_proxies su blank (fun _ _ => Undef) psmax nmax os (dirty_proxies_start su (fun _ => Undef)) = ORet rs s0 /\
  (exists s, proxy_run su psmax nmax os (proxy_start su) = ORet rs s /\
    ps_max s = ps_max s0 /\ ps_prox s = ps_prox s0 /\ ps_tab s = ps_tab s0 /\ fst (ps_w s) = fst (ps_w s0) /\ same_base (snd (ps_w s0)) (snd (ps_w s))) /\
  forall low high m, exists s, dirty_proxies su low high psmax nmax os (dirty_proxies_start su m) = ORet rs s /\
    ps_max s = ps_max s0 /\ ps_prox s = ps_prox s0 /\ ps_tab s = ps_tab s0 /\ fst (ps_w s) = fst (ps_w s0) /\ same_base (snd (ps_w s0)) (snd (ps_w s)).
Proof. exact (fun su psmax nmax os Hok => proxies_same su psmax nmax Hok os). Qed.
Print Assumptions C80_proxies.
Example C80_proxies_case : proxies_ok (big megabytes) (2 ^ 40) (2 ^ 20). Proof. exact (big_proxies _). Qed.

(** To no history of a client of the global allocators. *)
Theorem C80_global_strict : forall su sync os, setup_ok su -> exists rs c0, strict_run su sync os (gstart su) = ORet rs c0 /\
  forall low m, exists c, dirty_strict su low sync os (dirty_gstart su m) = ORet rs c /\
    gc_tab c = gc_tab c0 /\ g_on (gc_st c) = g_on (gc_st c0) /\ g_count (gc_st c) = g_count (gc_st c0) /\
    fst (g_aw (gc_st c)) = fst (g_aw (gc_st c0)) /\ same_base (snd (g_aw (gc_st c0))) (snd (g_aw (gc_st c))).
Proof. exact (fun su sync os Hok => strict_same su Hok sync os). Qed.
Print Assumptions C80_global_strict.
Theorem C80_global_lenient : forall su sync os, setup_ok su -> exists rs c0, lenient_run su sync os (gstart su) = ORet rs c0 /\
  forall low m, exists c, dirty_lenient su low sync os (dirty_gstart su m) = ORet rs c /\
    gc_tab c = gc_tab c0 /\ g_on (gc_st c) = g_on (gc_st c0) /\ g_count (gc_st c) = g_count (gc_st c0) /\
    fst (g_aw (gc_st c)) = fst (g_aw (gc_st c0)) /\ same_base (snd (g_aw (gc_st c0))) (snd (g_aw (gc_st c))).
Proof. exact (fun su sync os Hok => lenient_same su Hok sync os). Qed.
Print Assumptions C80_global_lenient.
Example C80_global_case : setup_ok roomy /\
  answers (dirty_lenient roomy grit true
    [GAlloc (mkLayout 16 8) true; GWrite 0 0 [Byte 7]; GRealloc 0 48; GBlink; GAlloc (mkLayout 40 8) false; GDealloc 1] (dirty_gstart roomy mud)) =
    [GPtr (2 ^ 20); GDone; GPtr (2 ^ 21); GDone; GPtr (3 * 2 ^ 20 + 32); GDone].
Proof. split; [exact roomy_ok|]. vm_compute. reflexivity. Qed.
