(** Property C76: what a thread builds on a [SyncBlinkAlloc] that other threads use at the same
    time.

    Vocabulary (ThreadProxy.v; [prun], [pagree], [owns], [proxies_ok] as in Properties_Proxy.v;
    [threaded], [t_mine], [t_log] as in Properties_Threaded.v).  [begins su t w] - threads have used
    the shared allocator for a while, thread [t] is not in a call, has nothing yet, and the future of
    the others is any.  [tp_run su t psmax nmax os] - thread [t] makes proxies, uses, resets
    ([PReset]; [reset_unchecked]: [PUse (Some k) (OpReset _)]) and drops them, and uses the shared
    allocator directly; the others make steps before each step of a call of the shared allocator.
    [lodging su t psmax min bomb k] - an arena of the thread with minimal chunk size [min], under a
    [Blink]: a [BlinkAlloc] ([Kept]) or a proxy ([Left]) that belongs to the [Blink], or a
    reference to one ([Lent]). *)
From Verif Require Import Base BaseFacts Alloc AllocFacts Arena BlinkAlloc History HistoryFacts Setup SetupFacts Concrete
  Conc ConcFacts ConcSteps ConcProps ConcDemo Blink BlinkInv BlinkReset BlinkIter BlinkMain BlinkEnv BlinkProps BlinkDemo
  Proxy ProxyFacts ProxyProps ProxyDemo Threaded ThreadedContract ThreadedDemo ThreadProxy ThreadProxyFacts ThreadProxyDemo.

(** ** C76 Proxies, and arenas in general, of one thread among others *)

(** Whatever the others do, everything the thread does returns; the blocks from its proxies and
    directly from the shared allocator are independent buffers, within the address space, and
    share no byte. *)
Theorem C76_separate : forall su t psmax nmax w os,
  proxies_ok su psmax nmax -> begins su t w -> forallb no_shared_reset os = true ->
  exists rs s, tp_run su t psmax nmax os w = ORet rs s /\ length rs = length os /\
    pagree (bw_mem (snd (g_aw (t_g (ps_w s))))) s (pspecs os rs (mkSp [] [])) /\
    (forall who h u, owns s who h u -> u_ok (su_amax su) u) /\
    (forall who1 h1 u1 who2 h2 u2, owns s who1 h1 u1 -> owns s who2 h2 u2 -> (who1, h1) <> (who2, h2) -> disjoint_u u1 u2).
Proof. exact (fun su t psmax nmax w os Hok => tp_separate su t psmax nmax Hok w os). Qed.
Print Assumptions C76_separate.
(** Panics are those of C51. *)
Theorem C76_panics : forall su t psmax nmax w os rs s,
  proxies_ok su psmax nmax -> begins su t w -> forallb no_shared_reset os = true ->
  tp_run su t psmax nmax os w = ORet rs s -> In PPanicked rs ->
  su_dbg su = true /\ exists o, In o os /\ exists k l z, o = PUse (Some k) (OpAlloc l z) /\ l_size l = 0 /\ l_align l <= 8.
Proof. exact (fun su t psmax nmax w os rs s Hok => tp_panics su t psmax nmax Hok w os rs s). Qed.
Print Assumptions C76_panics.
(** Each block of another thread holds what the operations on the shared allocator, in the order
    in which they took effect, make of an independent buffer; *)
Theorem C76_others_keep_their_values : forall su t psmax nmax w os rs s h u,
  proxies_ok su psmax nmax -> begins su t w -> forallb no_shared_reset os = true ->
  tp_run su t psmax nmax os w = ORet rs s ->
  get h (g_tab (t_g (ps_w s))) = Some u -> ~ In h (t_mine (ps_w s)) ->
  exists b, get h (srun (lin_ops (t_log (ps_w s))) (map (option_map b_len) (lin_results (t_log (ps_w s)))) []) = Some b /\
    buf_agrees (bw_mem (snd (g_aw (t_g (ps_w s))))) u b.
Proof. exact (fun su t psmax nmax w os rs s h u Hok => tp_others su t psmax nmax Hok w os rs s h u). Qed.
Print Assumptions C76_others_keep_their_values.
(** it shares no byte with a block of this one; *)
Theorem C76_nothing_in_common : forall su t psmax nmax w os rs s who h u h' u',
  proxies_ok su psmax nmax -> begins su t w -> forallb no_shared_reset os = true ->
  tp_run su t psmax nmax os w = ORet rs s -> owns s who h u ->
  get h' (g_tab (t_g (ps_w s))) = Some u' -> ~ In h' (t_mine (ps_w s)) -> disjoint_u u u'.
Proof. exact (fun su t psmax nmax w os rs s who h u h' u' Hok => tp_apart su t psmax nmax Hok w os rs s who h u h' u'). Qed.
Print Assumptions C76_nothing_in_common.
(** and each call of each thread takes effect once, between its beginning and its return. *)
Theorem C76_calls_in_order : forall su t psmax nmax w os rs s t',
  proxies_ok su psmax nmax -> begins su t w -> forallb no_shared_reset os = true ->
  tp_run su t psmax nmax os w = ORet rs s -> (t' < length (g_thr (t_g (ps_w s))))%nat ->
  exists ph, follows t' PIdle (t_log (ps_w s)) ph /\ (ph = PIdle <-> nth_error (g_thr (t_g (ps_w s))) t' = Some Idle).
Proof. exact (fun su t psmax nmax w os rs s t' Hok => tp_order su t psmax nmax Hok w os rs s t'). Qed.
Print Assumptions C76_calls_in_order.

(** A [Blink] on an arena of the thread: the arena keeps the contract, so all theorems of
    Properties_Blink.v hold; *)
Theorem C76_blink : forall su t psmax min bomb k,
  arena_fits su psmax min -> ISIZE_MAX <= psmax -> env_ok (lodging su t psmax min bomb k).
Proof. exact (fun su t psmax min bomb k Hok => lodging_ok su t psmax min Hok bomb k). Qed.
Print Assumptions C76_blink.
Theorem C76_blink_at_any_moment : forall su t psmax min bomb k n sched es g todo,
  arena_fits su psmax min -> crun su sched (cstart su n) = ORet es g -> nth_error (g_thr g) t = Some Idle ->
  ready (lodging su t psmax min bomb k) [] (arena_with_chunk_size min, mkT g [] es todo).
Proof. exact (fun su t psmax min bomb k n sched es g todo Hok => lodging_ready su t psmax min Hok bomb k n sched es g todo). Qed.
Print Assumptions C76_blink_at_any_moment.
(** the others keep their values, and no reference of the [Blink] shares a byte with them. *)
Theorem C76_blink_among_others : forall su t psmax min bomb k fr w os s h u,
  arena_fits su psmax min -> ISIZE_MAX <= psmax -> arrives (lodging su t psmax min bomb k) fr w os s ->
  get h (g_tab (t_g (snd (bl_w s)))) = Some u -> ~ In h (t_mine (snd (bl_w s))) ->
  (exists b, get h (srun (lin_ops (t_log (snd (bl_w s)))) (map (option_map b_len) (lin_results (t_log (snd (bl_w s))))) []) = Some b /\
     buf_agrees (bw_mem (snd (g_aw (t_g (snd (bl_w s)))))) u b) /\
  (forall i r x, get i (bl_tab s) = Some r -> covers r x -> ~ in_u x u).
Proof. exact (fun su t psmax min bomb k fr w os s h u Hok Hs => lodging_others su t psmax min Hok bomb k Hs fr w os s h u). Qed.
Print Assumptions C76_blink_among_others.

(** A [BlinkAlloc<&SyncBlinkAlloc>] gives everything back when it is dropped: the thread has no
    block of the shared allocator then. *)
Theorem C76_given_back : forall su t psmax min ops n sched es g todo,
  arena_fits su psmax min -> crun su sched (cstart su n) = ORet es g -> nth_error (g_thr g) t = Some Idle ->
  exists rs st aw, run psmax (blink (threaded su t) (su_dbg su)) (arena_reset (threaded su t)) ops
      (mkCst [] (arena_with_chunk_size min, mkT g [] es todo)) = ORet rs st /\
    blink_drop (threaded su t) (su_dbg su) (c_w st) = ORet tt aw /\ t_mine (snd aw) = [].
Proof. exact (fun su t psmax min ops n sched es g todo Hok => over_drop su t psmax min Hok ops n sched es g todo). Qed.
Print Assumptions C76_given_back.

(** Thread 0 is in the middle of copying a block of its own, and thread 2 in that of a call, when
    the first call of proxy 0 returns.  [reset_unchecked] of proxy 0 gives a chunk back, [reset] of
    proxy 1 does not.  The others have what they wrote. *)
Example C76_case :
  proxies_ok roomy (2 ^ 40) (2 ^ 20) /\ begins roomy 1 w_tp /\
  presults (tp_run roomy 1 (2 ^ 40) (2 ^ 20) (firstn 11 errands) w_tp) =
    [PDone; PBlock (Some (mkBlock 1048728 100)); PBlock None; PBlock (Some (mkBlock 1048960 50)); PDone;
     PBlock (Some (mkBlock 2097216 300)); PBlock (Some (mkBlock 3145792 500)); PBlock (Some (mkBlock 4194368 3200)); PBlock None;
     PBlock (Some (mkBlock 3145792 16)); PDone] /\
  g_thr (t_g (ps_w (s_tp 2))) =
    [Copy (JResize 0 (mkU 1048608 16 (La 16 8)) (La 16 8) (La 48 8)) (mkBlock 1048648 48) 12 false; Idle; WantRead (JAlloc (La 8 1))] /\
  map (fun n => t_mine (ps_w (s_tp n))) [8; 9; 11]%nat = [[7; 6; 5; 4; 2]; [7; 6; 5; 4]; [7; 6; 5; 4]]%nat /\
  map (fun h => get h (g_tab (t_g (ps_w (s_tp 11))))) [0; 1; 3]%nat = [Some (mkU 1048648 48 (La 48 8)); None; Some (mkU 1048952 8 (La 8 1))] /\
  map (fun i => bw_mem (snd (g_aw (t_g (ps_w (s_tp 11))))) (1048648 + i)) [0; 1; 20] = [Byte 5; Byte 6; Byte 7].
Proof.
  split; [exact roomy_proxies|]. split; [exact w_tp_begins|]. split; [vm_compute; reflexivity|].
  split; [vm_compute; reflexivity|]. split; [vm_compute; reflexivity|]. split; vm_compute; reflexivity.
Qed.
(** A [Blink] over each of the three: [reset] returns a chunk only in the first case. *)
Example C76_blink_case :
  arena_fits roomy ISIZE_MAX 64 /\ (forall k, ready (El k) [] (w_l k)) /\
  map (fun k => shown (s_l k)) [Kept; Left; Lent] = [[(1, [Some 3])]; [(1, [Some 3])]; [(1, [Some 3])]] /\
  map (fun k => t_mine (snd (bl_w (s_l k)))) [Kept; Left; Lent] = [[4]; [4; 2]; [4; 2]]%nat.
Proof. split; [exact roomy_fits|]. split; [exact w_l_ready|]. split; vm_compute; reflexivity. Qed.
Example C76_given_back_case : t_mine (snd (c_w s_over)) = [6; 5; 4; 2]%nat /\ length (live (c_tab s_over)) = 2%nat.
Proof. split; vm_compute; reflexivity. Qed.
