(** Properties C62-C63: what a [SyncBlinkAlloc] used by many threads asks of the underlying allocator.

    Vocabulary as in Properties_Conc.v; [cupstream g] - the record of calls of the underlying allocator,
    newest first; [asks] - how many of them are requests for memory; [block_calls es] - how many calls
    of allocate or resize were made (ConcAsk.v); [no_room g l] - no aligned place for [l] behind the
    cursor of the newest chunk (ConcFull.v); [wanted], [rounded] - the size of new chunks (Setup.v). *)
From Verif Require Import Base Alloc Arena BlinkAlloc History Setup SetupFacts SetupProps Concrete
  Conc ConcFacts ConcSteps ConcProps ConcDemo ConcAsk ConcFull ConcAskRun.

(** ** C62 A concurrent request fails only when it must *)

(** The step in which a request fails has just been refused a chunk of the usual size, or that size
    is not representable. *)
Theorem C62_fails_only_when_it_must : forall su n sched es g c es2 g2 t o l,
  setup_ok su -> crun su sched (cstart su n) = ORet es g -> cstep su c g = ORet es2 g2 ->
  In (Lin t o None) es2 ->
  match o with OpAlloc l' _ | OpResize _ _ l' => l' = l | _ => False end ->
  (exists lay, cupstream g2 = EvAlloc lay None :: cupstream g /\
     st_alloc (su_strat su) (cupstream g) lay = None /\ l_align lay = 8 /\
     rounded (wanted (su_min su) (outstanding (cupstream g)) l) (l_size lay)) \/
  (cupstream g2 = cupstream g /\ USIZE_MAX < wanted (su_min su) (outstanding (cupstream g)) l + 7).
Proof.
  exact (fun su n sched es g c es2 g2 t o l Hok => creached_denied su Hok n sched es g c es2 g2 t o l).
Qed.
Print Assumptions C62_fails_only_when_it_must.

(** However the threads race, there are never more requests than calls. *)
Theorem C62_one_request_per_call : forall su n sched es g,
  setup_ok su -> crun su sched (cstart su n) = ORet es g -> (asks (cupstream g) <= block_calls es)%nat.
Proof. exact (fun su n sched es g Hok => creached_asks su Hok n sched es g). Qed.
Print Assumptions C62_one_request_per_call.

(** The underlying allocator gives one chunk only: thread 1 is refused. *)
Example C62_case :
  In (Lin 1 (OpAlloc (La 400 8) false) None) (cevents (demo stingy) 2 refused) /\
  cupstream (cfinal (demo stingy) 2 refused) =
    [EvAlloc (La 1024 8) None; EvAlloc (La 512 8) (Some (mkBlock 1048576 512))] /\
  block_calls (cevents (demo stingy) 2 refused) = 2%nat.
Proof. split; [vm_compute; auto 10|]. split; vm_compute; reflexivity. Qed.

(** ** C63 Memory is asked for only when there is no room *)

(** Whoever asks for a chunk found, at some moment of the same call, no room for the request in the
    newest chunk - also when old values of the cursor were loaded - and asks once, for a chunk of the
    usual size.  That there is no room at the moment of asking does not hold (below). *)
Theorem C63_there_was_no_room_partial : forall su n sched es g c es' g',
  setup_ok su -> crun su sched (cstart su n) = ORet es g -> cstep su c g = ORet es' g' ->
  asks (cupstream g') <> asks (cupstream g) ->
  exists t sp j lay r, c = Go t sp /\ nth_error (g_thr g) t = Some (Slow j) /\
    (cupstream g' = EvAlloc lay r :: cupstream g /\ l_align lay = 8 /\
     rounded (wanted (su_min su) (outstanding (cupstream g)) (job_layout j)) (l_size lay)) /\
    exists sched1 sched2 es1 es2 g1, sched = sched1 ++ sched2 /\
      crun su sched1 (cstart su n) = ORet es1 g1 /\ crun su sched2 g1 = ORet es2 g /\
      same_call t es2 /\ no_room g1 (job_layout j).
Proof. exact (fun su n sched es g c es' g' Hok => creached_asked su Hok n sched es g c es' g'). Qed.
Print Assumptions C63_there_was_no_room_partial.

(** Thread [t] waits for the write lock and then asks for a chunk, although any other thread would be
    served from the newest one: the slow path does not look again after taking the lock. *)
Theorem C63_refuted : exists su n sched es g t t2 l es1 g1 es2 g2 b,
  setup_ok su /\ crun su sched (cstart su n) = ORet es g /\
  crun su [Go t false; Go t false] g = ORet es1 g1 /\ asks (cupstream g1) = S (asks (cupstream g)) /\
  (exists j, nth_error (g_thr g) t = Some (WantWrite j) /\ job_layout j = l) /\
  crun su [Start t2 (OpAlloc l false); Go t2 false; Go t2 false; Go t2 false] g = ORet es2 g2 /\
  In (Lin t2 (OpAlloc l false) (Some b)) es2 /\ asks (cupstream g2) = asks (cupstream g).
Proof. exact ask_with_room. Qed.
Print Assumptions C63_refuted.

(** Thread 1 is about to ask for a second chunk: when it gave up, [no_room] was true. *)
Example C63_case :
  nth_error (g_thr (cfinal cs0 2 (both_full ++ [Go 1 false]))) 1 = Some (Slow (JAlloc (La 16 8))) /\
  asked 2 (both_full ++ [Go 1 false]) = 1%nat /\ asked 2 (both_full ++ [Go 1 false; Go 1 false]) = 2%nat /\
  no_room (cfinal cs0 2 (firstn 2 both_full)) (La 16 8).
Proof.
  split; [vm_compute; reflexivity|]. split; [vm_compute; reflexivity|]. split; [vm_compute; reflexivity|].
  left. vm_compute. reflexivity.
Qed.
