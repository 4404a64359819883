(** Concrete schedules of threads that use a shared allocator and its proxies. *)
From Verif Require Import Base BaseFacts Alloc AllocFacts Arena BlinkAlloc History HistoryFacts Setup SetupFacts Concrete
  BlinkDemo Proxy ProxyFacts ProxyProps ProxyDemo Conc ConcFacts ConcProps PConc PConcAsk PConcFacts PConcProps.

Definition ps0 : setup := big megabytes.
Definition revents (n : nat) (sched : list rchoice) : list revent :=
  match rrun ps0 (2 ^ 40) (2 ^ 20) sched (rstart ps0 n) with ORet es _ => es | _ => [] end.
Definition rfinal (n : nat) (sched : list rchoice) : rst :=
  match rrun ps0 (2 ^ 40) (2 ^ 20) sched (rstart ps0 n) with ORet _ s => s | _ => rstart ps0 n end.
Lemma rfinal_reached n sched : rrun ps0 (2 ^ 40) (2 ^ 20) sched (rstart ps0 n) = ORet (revents n sched) (rfinal n sched).
Proof.
  destruct (rrun_returns ps0 (2 ^ 40) (2 ^ 20) (big_proxies megabytes) n sched) as (es & s & E).
  unfold revents, rfinal. rewrite E. reflexivity.
Qed.

(** The steps of threads 0, 1 and 2 in turn. *)
Definition turns (n : nat) : list rchoice := concat (repeat [RGo 0 false; RGo 1 false; RGo 2 false] n).

(** Threads 0 and 1 allocate on two proxies, which both need a chunk, while thread 2
    allocates from the shared allocator. *)
Definition both : list rchoice :=
  [RLocal 0; RLocal 0; RUse 0 0 (OpAlloc (L 100 8) false); RUse 1 1 (OpAlloc (L 200 16) true); RStart 2 (OpAlloc (L 24 8) false)].
Definition both_done : list rchoice := both ++ turns 12 ++ [RNext 0; RNext 1].
(** Everybody writes (a write of thread 2 to the chunk of proxy 0 is not allowed); thread 1 works
    on proxy 0 now, thread 0 moves the block of proxy 1. *)
Definition filled : list rchoice :=
  both_done ++ [RUse 1 0 (OpWrite 0 0 [Byte 1; Byte 2]); RUse 0 1 (OpWrite 0 0 [Byte 3; Byte 4]); RStart 2 (OpWrite 0 0 [Byte 9]); RStart 2 (OpWrite 2 0 [Byte 5; Byte 6]);
    RUse 0 1 (OpResize 0 (L 200 16) (L 5000 16)); RUse 1 0 (OpAlloc (L 8 8) false)] ++ turns 12 ++ [RNext 0].
(** Proxy 0 is dropped, its memory stays with the shared allocator. *)
Definition dropped : list rchoice := filled ++ [RDrop 0; RLocal 225; RLocal 224].
Definition everything : list rchoice := dropped ++ [RReset 1; RDrop 1; RDrop 2].
Definition ptabs (s : rst) : list (option (list (option ublock))) := map (option_map px_tab) (r_prox s).
