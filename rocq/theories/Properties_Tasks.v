(** Property C75: tasks take [BlinkAlloc]s from a [BlinkAllocCache], use them and return them
    (README.md 85-88).

    Vocabulary (Tasks.v).  [trun su vmax cs (tstart n)] - [n] threads, one cache, one underlying
    allocator as in [su]; [cs] says which thread does what next: [TDo t a] - the action [a] of C74 on one
    of its own [BlinkAlloc]s, [TPush t k] - it calls [push] with its [k]-th, [TPop t] - it calls [pop],
    [TGo t] - the next step of the call it is in.  [vmax] - how long a [Vec] can get.  [tspecs] - the
    same with independent buffers and a first-in-first-out queue; [None] - this cannot happen.
    [tk_own s] - what each thread has; [on_the_way] - what each thread is handing over or being handed;
    [queue_of] - what is in the cache, the oldest first; [everything s] - all three together.
    [flat s] - the state in the sense of C74 with all of [everything s]. *)
From Coq Require Import Permutation.
From Verif Require Import Base BaseFacts Alloc AllocFacts Arena BlinkAlloc History HistoryFacts Setup SetupFacts SetupProps Concrete
  Wraps WrapsFacts WrapsProps WrapsDemo Cache CacheFacts CacheProps CacheDemo Tasks TasksFacts TasksWarm TasksProps TasksDemo.

(** ** C75 Tasks and the cache *)

(** Whatever the threads do and in whatever order: no undefined behaviour, no abort, no panic but the one
    of a [Vec] that is as long as it can get; what the threads observe is what they would observe with
    independent buffers and a queue; the contents of all blocks - of those that a thread has, those on the
    way, those in the cache - are those of the buffers. *)
Theorem C75_as_with_a_queue : forall su vmax n cs, tasks_ok su vmax n cs ->
  match trun su vmax cs (tstart n) with
  | ORet es s => exists b, tspecs es (tspec0 n) = Some b /\ tagrees s b
  | OPanic s => zlen (q_pop (tk_q s)) = vmax
  | _ => False
  end.
Proof. exact tasks_total. Qed.
Print Assumptions C75_as_with_a_queue.
(** No two blocks share a byte, wherever they are. *)
Theorem C75_disjoint : forall su vmax n cs es s who1 h1 u1 who2 h2 u2, tasks_ok su vmax n cs -> trun su vmax cs (tstart n) = ORet es s ->
  wowns (flat s) who1 h1 u1 -> wowns (flat s) who2 h2 u2 -> (who1, h1) <> (who2, h2) -> disjoint_u u1 u2.
Proof. exact (fun su vmax n cs es s who1 h1 u1 who2 h2 u2 H E => tasks_apart su vmax n cs H es s E who1 h1 u1 who2 h2 u2). Qed.
Print Assumptions C75_disjoint.
(** Each block lies in a chunk of its [BlinkAlloc], which has not been given back. *)
Theorem C75_placed : forall su vmax n cs es s x h u, tasks_ok su vmax n cs -> trun su vmax cs (tstart n) = ORet es s ->
  In x (everything s) -> get h (wp_tab x) = Some u ->
  u_ok (su_amax su) u /\ exists v, In v (wheld (flat s)) /\ inside u v /\ In (u_ptr v) (chunks_at (flat s) x).
Proof. exact (fun su vmax n cs es s x h u H E => tasks_placed su vmax n cs H es s E x h u). Qed.
Print Assumptions C75_placed.
(** What is held of the underlying allocator are the chunks, each of exactly one [BlinkAlloc] - of a
    thread, on the way or in the cache -, and the blocks taken directly. *)
Theorem C75_accounts : forall su vmax n cs es s, tasks_ok su vmax n cs -> trun su vmax cs (tstart n) = ORet es s ->
  Permutation (map u_ptr (wheld (flat s))) (concat (map (chunks_at (flat s)) (everything s)) ++ map u_ptr (live (tk_tab s))) /\
  legal (su_bmax su) (bw_trace (tk_w s)).
Proof. exact (fun su vmax n cs es s H E => tasks_held su vmax n cs H es s E). Qed.
Print Assumptions C75_accounts.
(** When all that the threads had has been dropped (or emptied) and no call is in progress, what is held are
    the chunks of those in the cache and the direct blocks; dropping the cache gives none of them back
    (C29). *)
Theorem C75_left_in_the_cache : forall su vmax n cs es s, tasks_ok su vmax n cs -> trun su vmax cs (tstart n) = ORet es s ->
  concat (on_the_way (tk_q s)) = [] ->
  (forall x, In x (concat (tk_own s)) -> wp_fate x = Dropped \/ chunks_at (flat s) x = []) ->
  Permutation (map u_ptr (wheld (flat s))) (concat (map (chunks_at (flat s)) (queue_of (tk_q s))) ++ map u_ptr (live (tk_tab s))) /\
  drop_cache (tk_q s) (tk_w s) = ORet tt (tk_w s).
Proof.
  exact (fun su vmax n cs es s H E Hw Hd => conj (tasks_left su vmax n cs H es s E Hw Hd) (drop_cache_nothing (tk_q s) (tk_w s))).
Qed.
Print Assumptions C75_left_in_the_cache.

(** *** Warm allocators *)

(** Steps in the cache do nothing to the underlying allocator or to memory, and lose or duplicate no
    [BlinkAlloc]. *)
Theorem C75_cache_only_moves : forall su vmax n cs es s c es' s', tasks_ok su vmax n cs -> trun su vmax cs (tstart n) = ORet es s ->
  match c with TDo _ _ => False | _ => True end -> tstep su vmax c s = ORet es' s' ->
  tk_w s' = tk_w s /\ tk_tab s' = tk_tab s /\ Permutation (everything s') (everything s).
Proof. exact (fun su vmax n cs es s c es' s' H E => tasks_silent su vmax n cs H es s E c es' s'). Qed.
Print Assumptions C75_cache_only_moves.
(** What a thread does with one leaves every other as it is: its chunks, what is left in them, all their
    bytes. *)
Theorem C75_others_untouched : forall su vmax n cs es s t a es' s' x, tasks_ok su vmax n cs -> trun su vmax cs (tstart n) = ORet es s ->
  min_fine su a -> tstep su vmax (TDo t a) s = ORet es' s' -> elsewhere t a s x ->
  elsewhere t a s' x /\ tk_q s' = tk_q s /\ (forall t', t' <> t -> nth_error (tk_own s') t' = nth_error (tk_own s) t') /\
  as_it_was (tk_w s) (tk_w s') x.
Proof. exact (fun su vmax n cs es s t a es' s' x H E => tasks_others su vmax n cs H es s E t a es' s' x). Qed.
Print Assumptions C75_others_untouched.
(** One that has room, wherever it has been: the operation does not call the underlying allocator, a
    request succeeds, and the room shrinks by no more than the operation needs. *)
Theorem C75_warm : forall su vmax n cs es s t xs k x o, tasks_ok su vmax n cs -> trun su vmax cs (tstart n) = ORet es s ->
  free t s = Some xs -> nth_error xs k = Some x -> wp_fate x = Alive -> ar_root (wp_arena x) <> None ->
  is_reset o = false -> need o <= spare (bw_mem (tk_w s)) x ->
  exists r s' xs' x', tstep su vmax (TDo t (WUse k o)) s = ORet [EDo t (WUse k o) r] s' /\
    bw_trace (tk_w s') = bw_trace (tk_w s) /\
    free t s' = Some xs' /\ nth_error xs' k = Some x' /\ wp_fate x' = Alive /\ ar_root (wp_arena x') = ar_root (wp_arena x) /\
    spare (bw_mem (tk_w s)) x - need o <= spare (bw_mem (tk_w s')) x' /\
    ((exists l, requests su (mkCst (wp_tab x) (wp_arena x, tk_w s)) o l) -> r <> None).
Proof. exact (fun su vmax n cs es s t xs k x o H E => tasks_warm su vmax n cs H es s E t xs k x o). Qed.
Print Assumptions C75_warm.
(** [reset] (before or after the stay in the cache) leaves the newest chunk, all of it free. *)
Theorem C75_reset_makes_room : forall su vmax n cs es s t xs k x, tasks_ok su vmax n cs -> trun su vmax cs (tstart n) = ORet es s ->
  free t s = Some xs -> nth_error xs k = Some x -> wp_fate x = Alive ->
  exists s' xs' x', tstep su vmax (TDo t (WUse k (OpReset true))) s = ORet [EDo t (WUse k (OpReset true)) None] s' /\
    free t s' = Some xs' /\ nth_error xs' k = Some x' /\ wp_fate x' = Alive /\ ar_root (wp_arena x') = ar_root (wp_arena x) /\
    spare (bw_mem (tk_w s)) x <= spare (bw_mem (tk_w s')) x' /\
    chunks_at (flat s') x' = firstn 1 (chunks_at (flat s) x) /\
    forall p, ar_root (wp_arena x) = Some p ->
      exists v, In v (wheld (flat s)) /\ In v (wheld (flat s')) /\ u_ptr v = p /\ 0 < u_len v /\
        spare (bw_mem (tk_w s')) x' = u_len v - HEADER.
Proof. exact (fun su vmax n cs es s t xs k x H E => tasks_reset su vmax n cs H es s E t xs k x). Qed.
Print Assumptions C75_reset_makes_room.

(** Two tasks: the second gets the first one's [BlinkAlloc] through the cache, with the block in it, and
    allocates from its chunk; another one stays in the cache. *)
Example C75_case :
  let s := tfinal handing_over 2 in
  tasks_ok dm 1000 2 handing_over /\ trun dm 1000 handing_over (tstart 2) = ORet (tevents handing_over 2) s /\
  filter (fun e => match e with EDo _ _ _ => false | _ => true end) (tevents handing_over 2) =
    [EPush 0 0; EPop 1; EOut 1 false; EBack 1 false; EIn 0; EPop 1; EBack 0 false; EOut 1 true; EBack 1 true; EPush 0 0; EIn 0; EBack 0 false] /\
  map (map wp_fate) (tk_own s) = [[]; [Alive; Alive]] /\ map wp_fate (queue_of (tk_q s)) = [Alive] /\
  map (chunks_at (flat s)) (everything s) = [[2097152]; [1048576]; [3145728]] /\
  map u_ptr (wheld (flat s)) = [4194304; 3145728; 2097152; 1048576] /\
  map (bw_mem (tk_w s)) [1048608; 1048609] = [Byte 7; Byte 9] /\
  map (spare (bw_mem (tk_w s))) (everything s) = [464; 6056; 952] /\
  wowns (flat s) (Some 1%nat) 1%nat (mkU 1048712 2000 (L 2000 8)) /\ wowns (flat s) (Some 2%nat) 0%nat (mkU 3145760 40 (L 40 8)) /\
  (exists xs x, free 1 s = Some xs /\ nth_error xs 1 = Some x /\ wp_fate x = Alive /\ ar_root (wp_arena x) = Some 1048576 /\
     need (OpAlloc (L 6000 8) true) <= spare (bw_mem (tk_w s)) x /\
     requests dm (mkCst (wp_tab x) (wp_arena x, tk_w s)) (OpAlloc (L 6000 8) true) (L 6000 8) /\
     elsewhere 1 (WUse 0 (OpAlloc (L 6000 8) true)) s x) /\
  exists x, elsewhere 1 (WUse 0 (OpAlloc (L 6000 8) true)) s x /\ In x (queue_of (tk_q s)).
Proof.
  cbv zeta. split; [apply demo_tasks; [lia|vm_compute; reflexivity]|]. split; [apply trun_final; vm_compute; reflexivity|].
  split; [vm_compute; reflexivity|]. split; [vm_compute; reflexivity|]. split; [vm_compute; reflexivity|].
  split; [vm_compute; reflexivity|]. split; [vm_compute; reflexivity|]. split; [vm_compute; reflexivity|]. split; [vm_compute; reflexivity|].
  split; [eexists; split; vm_compute; reflexivity|]. split; [eexists; split; vm_compute; reflexivity|]. split.
  - eexists _, _. split; [vm_compute; reflexivity|]. split; [reflexivity|]. split; [reflexivity|]. split; [reflexivity|].
    split; [apply Z.leb_le; vm_compute; reflexivity|]. split; [split; [reflexivity|vm_compute; reflexivity]|].
    right. left. exists 1%nat. eexists. split; [vm_compute; reflexivity|]. split; [reflexivity|discriminate].
  - eexists. split; [right; right; right|]; (vm_compute; left; reflexivity).
Qed.
(** The rest dropped: the chunk of the one in the cache is what remains, with the direct block. *)
Example C75_case_left :
  let s := tfinal then_dropped 2 in
  tasks_ok dm 1000 2 then_dropped /\ trun dm 1000 then_dropped (tstart 2) = ORet (tevents then_dropped 2) s /\
  concat (on_the_way (tk_q s)) = [] /\ map (map wp_fate) (tk_own s) = [[]; [Dropped; Dropped]] /\
  map (chunks_at (flat s)) (queue_of (tk_q s)) = [[3145728]] /\ map u_ptr (wheld (flat s)) = [4194304; 3145728] /\
  map u_ptr (live (tk_tab s)) = [4194304].
Proof.
  cbv zeta. split; [apply demo_tasks; [lia|vm_compute; reflexivity]|]. split; [apply trun_final; vm_compute; reflexivity|].
  split; [vm_compute; reflexivity|]. split; [vm_compute; reflexivity|]. split; [vm_compute; reflexivity|]. split; vm_compute; reflexivity.
Qed.
