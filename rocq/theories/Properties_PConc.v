(** Property C59: one [SyncBlinkAlloc] and its thread-local proxies, used by any number of
    threads at the same time.

    Vocabulary (PConc.v, PConcProps.v): [rrun su psmax nmax sched (rstart su n) = ORet es s] -
    [n] threads follow the schedule [sched], ending in [s], and [es] is the record of what
    happened.  A choice of the schedule is "thread t begins this operation on the shared
    allocator", "thread t makes its next step inside the shared allocator" (also one in which a
    weak compare-exchange fails or an old value is loaded), "thread t begins this operation on
    proxy k", "thread t goes on with the operation on the proxy, the shared allocator having
    answered", the creation, reset or drop of a proxy, and resets of the shared allocator when
    there is no proxy.  [rowns s None h u] - [u] is block [h] of the shared allocator, and no
    proxy allocated it; [rowns s (Some k) h u] - [u] is block [h] of proxy [k]; [gmem (r_g s)] -
    the memory; [rheld s] - the chunks held from the underlying allocator. *)
From Verif Require Import Base BaseFacts Alloc AllocFacts Arena BlinkAlloc History HistoryFacts Setup SetupFacts SetupProps Concrete
  BlinkDemo Proxy ProxyFacts ProxyProps ProxyDemo Conc ConcFacts ConcProps PConc PConcAsk PConcFacts PConcProps PConcDemo PConcMax.

(** ** C59 The shared allocator and its proxies are safe under every schedule *)
Theorem C59_no_schedule_goes_wrong : forall su psmax nmax n sched, proxies_ok su psmax nmax ->
  exists es s, rrun su psmax nmax sched (rstart su n) = ORet es s.
Proof. exact (fun su psmax nmax n sched Hok => rrun_returns su psmax nmax Hok n sched). Qed.
Print Assumptions C59_no_schedule_goes_wrong.

Theorem C59_blocks_well_placed : forall su psmax nmax n sched es s who h u, proxies_ok su psmax nmax ->
  rrun su psmax nmax sched (rstart su n) = ORet es s -> rowns s who h u ->
  0 < u_ptr u /\ u_ptr u mod l_align (u_layout u) = 0 /\ l_size (u_layout u) <= u_len u /\
  u_ptr u + u_len u <= su_amax su /\ exists k, In k (rheld s) /\ inside u k.
Proof. exact (fun su psmax nmax n sched es s who h u Hok => rreached_block su psmax nmax Hok n sched es s who h u). Qed.
Print Assumptions C59_blocks_well_placed.

Theorem C59_blocks_disjoint : forall su psmax nmax n sched es s who1 h1 u1 who2 h2 u2, proxies_ok su psmax nmax ->
  rrun su psmax nmax sched (rstart su n) = ORet es s -> rowns s who1 h1 u1 -> rowns s who2 h2 u2 -> (who1, h1) <> (who2, h2) ->
  forall x, u_ptr u1 <= x < u_ptr u1 + u_len u1 -> ~ u_ptr u2 <= x < u_ptr u2 + u_len u2.
Proof.
  exact (fun su psmax nmax n sched es s who1 h1 u1 who2 h2 u2 Hok =>
    rreached_disjoint su psmax nmax Hok n sched es s who1 h1 u1 who2 h2 u2).
Qed.
Print Assumptions C59_blocks_disjoint.

(** What a client allocates from the shared allocator itself is theirs. *)
Theorem C59_own_block : forall su psmax nmax n sched es s t sp es' s' l b, proxies_ok su psmax nmax ->
  rrun su psmax nmax sched (rstart su n) = ORet es s -> nth_error (r_job s) t = Some RNone ->
  rstep su psmax nmax (RGo t sp) s = ORet es' s' -> In (RO (Lin t (OpAlloc l false) (Some b))) es' ->
  rowns s' None (length (g_tab (r_g s))) (mkU (b_ptr b) (b_len b) l).
Proof. exact (fun su psmax nmax n sched es s t sp es' s' l b Hok => rreached_direct su psmax nmax Hok n sched es s t sp es' s' l b). Qed.
Print Assumptions C59_own_block.

(** The blocks of every proxy behave as independent buffers ... *)
Theorem C59_proxy_contents : forall su psmax nmax n sched es s k p, proxies_ok su psmax nmax ->
  rrun su psmax nmax sched (rstart su n) = ORet es s -> get k (r_prox s) = Some p ->
  exists t, get k (proxies_spec es) = Some t /\ agrees (gmem (r_g s)) (px_tab p) t.
Proof. exact (fun su psmax nmax n sched es s k p Hok => rreached_proxy su psmax nmax Hok n sched es s k p). Qed.
Print Assumptions C59_proxy_contents.

(** ... and so do those of the shared allocator. *)
Theorem C59_shared_contents : forall su psmax nmax n sched es s, proxies_ok su psmax nmax ->
  rrun su psmax nmax sched (rstart su n) = ORet es s ->
  agrees (gmem (r_g s)) (g_tab (r_g s))
    (srun (lin_ops (shared_events es)) (map (option_map b_len) (lin_results (shared_events es))) []).
Proof. exact (fun su psmax nmax n sched es s Hok => rreached_shared su psmax nmax Hok n sched es s). Qed.
Print Assumptions C59_shared_contents.

Theorem C59_upstream_calls_legal : forall su psmax nmax n sched es s, proxies_ok su psmax nmax ->
  rrun su psmax nmax sched (rstart su n) = ORet es s -> legal (su_bmax su) (bw_trace (snd (g_aw (r_g s)))).
Proof. exact (fun su psmax nmax n sched es s Hok => rreached_legal su psmax nmax Hok n sched es s). Qed.
Print Assumptions C59_upstream_calls_legal.

(** The only panics are those of C51. *)
Theorem C59_panics : forall su psmax nmax n sched es s o, proxies_ok su psmax nmax ->
  rrun su psmax nmax sched (rstart su n) = ORet es s -> In (RP o PPanicked) es ->
  su_dbg su = true /\ exists k l z, o = PUse (Some k) (OpAlloc l z) /\ l_size l = 0 /\ l_align l <= 8.
Proof. exact (fun su psmax nmax n sched es s o Hok => rreached_panic su psmax nmax Hok n sched es s o). Qed.
Print Assumptions C59_panics.

(** Whatever the threads are doing, they can all finish. *)
Theorem C59_no_deadlock : forall su psmax nmax n sched es s, proxies_ok su psmax nmax ->
  rrun su psmax nmax sched (rstart su n) = ORet es s ->
  exists sched2 es2 s2, Forall (fun c => (exists t, c = RGo t false) \/ exists t, c = RNext t) sched2 /\
    rrun su psmax nmax sched2 s = ORet es2 s2 /\
    forall t, (t < length (g_thr (r_g s2)))%nat -> rready t s2 = true.
Proof. exact (fun su psmax nmax n sched es s Hok => rreached_drain su psmax nmax Hok n sched es s). Qed.
Print Assumptions C59_no_deadlock.

(** With no proxy left and no thread in a call, [reset_final] returns every byte to the
    underlying allocator. *)
Theorem C59_reclaimed : forall su psmax nmax n sched es s, proxies_ok su psmax nmax ->
  rrun su psmax nmax sched (rstart su n) = ORet es s -> forallb is_none (r_prox s) = true ->
  forallb is_idle (g_thr (r_g s)) = true ->
  exists s', rstep su psmax nmax (RExclusive false) s = ORet [RO (ResetAll false)] s' /\ rheld s' = [].
Proof. exact (fun su psmax nmax n sched es s Hok => rreached_reclaimed su psmax nmax Hok n sched es s). Qed.
Print Assumptions C59_reclaimed.

(** The size recorded for new proxies never falls, whoever reports at the same time; it
    covers what [update_max_local_alloc] was called with ... *)
Theorem C59_recorded_size_grows : forall su psmax nmax sched s es s',
  rrun su psmax nmax sched s = ORet es s' ->
  r_max s <= r_max s' /\ forall v r, In (RP (PUpdate v) r) es -> v <= r_max s'.
Proof. exact (fun su psmax nmax sched => rrun_max su psmax nmax sched). Qed.
Print Assumptions C59_recorded_size_grows.

(** ... and the last chunk of every proxy that was reset or dropped ([rlast s k] - its
    capacity). *)
Theorem C59_recorded_size_covers : forall su psmax nmax k c s es s' n, (c = RReset k \/ c = RDrop k) ->
  rstep su psmax nmax c s = ORet es s' -> es <> [] -> rlast s k = Some n -> n <= r_max s'.
Proof. exact (fun su psmax nmax => leaving_records su psmax nmax). Qed.
Print Assumptions C59_recorded_size_covers.

Example C59_case_recorded :
  r_max (rfinal 3 filled) = 0 /\ rlast (rfinal 3 filled) 0 = Some 224 /\ r_max (rfinal 3 dropped) = 224 /\
  rlast (rfinal 3 dropped) 1 = Some 8160 /\ r_max (rfinal 3 (dropped ++ [RReset 1])) = 8160 /\
  r_max (rfinal 3 (dropped ++ [RUpdate 500; RUpdate 300])) = 500.
Proof.
  split; [vm_compute; reflexivity|]. split; [vm_compute; reflexivity|]. split; [vm_compute; reflexivity|].
  split; [vm_compute; reflexivity|]. split; vm_compute; reflexivity.
Qed.

(** Two proxies need chunks at the same time, while a third thread allocates from the
    shared allocator. *)
Example C59_case : proxies_ok ps0 (2 ^ 40) (2 ^ 20) /\
  rrun ps0 (2 ^ 40) (2 ^ 20) both_done (rstart ps0 3) = ORet (revents 3 both_done) (rfinal 3 both_done) /\
  map (fun q => job_proxy q) (r_job (rfinal 3 (both ++ turns 1))) = [Some 0%nat; Some 1%nat; None] /\
  r_chunk (rfinal 3 both_done) = [1%nat; 0%nat] /\
  g_tab (r_g (rfinal 3 both_done)) = [Some (mkU 1048608 256 (L 256 8)); Some (mkU 2097184 256 (L 256 8)); Some (mkU 3145760 24 (L 24 8))] /\
  ptabs (rfinal 3 both_done) = [Some [Some (mkU 1048640 100 (L 100 8))]; Some [Some (mkU 2097216 200 (L 200 16))]].
Proof. split; [apply big_proxies|]. split; [apply rfinal_reached|]. repeat split; vm_compute; reflexivity. Qed.
(** A proxy block is moved to a new chunk, with its contents, while the other proxy
    allocates. *)
Example C59_case_moved : ptabs (rfinal 3 filled) =
    [Some [Some (mkU 1048640 100 (L 100 8)); Some (mkU 1048744 8 (L 8 8))]; Some [Some (mkU 4194368 5000 (L 5000 16))]] /\
  map (gmem (r_g (rfinal 3 filled))) [1048640; 1048641; 4194368; 4194369; 4194370; 3145760; 3145761] =
    [Byte 1; Byte 2; Byte 3; Byte 4; Byte 0; Byte 5; Byte 6] /\
  rready 0 (rfinal 3 filled) = true /\ rready 0 (rfinal 3 (both ++ turns 1)) = false.
Proof. repeat split; vm_compute; reflexivity. Qed.
Example C59_case_own : let s := rfinal 3 (both ++ turns 7) in
  nth_error (r_job s) 2 = Some RNone /\ length (g_tab (r_g s)) = 2%nat /\
  match rstep ps0 (2 ^ 40) (2 ^ 20) (RGo 2 false) s with
  | ORet es _ => es = [RO (Lin 2 (OpAlloc (L 24 8) false) (Some (mkBlock 3145760 24)))]
  | _ => False
  end.
Proof. split; [vm_compute; reflexivity|]. split; vm_compute; reflexivity. Qed.
Example C59_case_end : let s := rfinal 3 everything in
  forallb is_none (r_prox s) = true /\ forallb is_idle (g_thr (r_g s)) = true /\ length (rheld s) = 4%nat /\ r_max s = 8160 /\
  map (option_map (fun p => ar_min (px_arena p))) (r_prox (rfinal 3 dropped)) = [None; Some 0; Some 224].
Proof. repeat split; vm_compute; reflexivity. Qed.
