(** A [Blink] of one thread while two others use the allocator: an example. *)
From Verif Require Import Base BaseFacts Alloc AllocFacts Arena BlinkAlloc History HistoryFacts Setup SetupFacts Concrete
  Conc ConcFacts ConcSteps ConcProps ConcDemo Blink BlinkInv BlinkEnv BlinkProps BlinkDemo Threaded ThreadedContract.

Notation others_at := (big megabytes).
Notation Et := (threading others_at 1 calm).
(** Thread 0 has a block, thread 2 is in the middle of a call, when thread 1 creates the [Blink]. *)
Definition before : list choice :=
  Start 0 (OpAlloc (La 16 8) false) :: times 5 0 ++
  [Start 0 (OpWrite 0 0 [Byte 5; Byte 6]); Start 2 (OpAlloc (La 24 8) false); Go 2 false; Go 2 false].
(** Thread 2 is faster than the [Blink], twice; thread 0 resizes and moves its block while the
    [Blink] allocates, writes to it, and frees that of thread 2. Choices that are not theirs
    (of thread 1, a reset, blocks of the [Blink]) are ignored. *)
Definition scramble : list turn :=
  [mkTurn [] (Fresh false); mkTurn [Start 0 (OpResize 0 (La 16 8) (La 48 8))] (Fresh false); mkTurn [Go 2 false] (Fresh false);
   mkTurn [Go 0 false; Start 1 (OpDealloc 1 (La 24 8))] (Fresh true); mkTurn (times 6 0) (Old 1048608); mkTurn [Exclusive true] (Fresh false);
   mkTurn (Go 2 false :: times 9 0) (Fresh false); mkTurn [Start 2 (OpAlloc (La 8 1) false)] (Fresh false);
   mkTurn [Go 2 false; Go 2 false; Go 2 false; Go 2 false; Start 2 (OpDealloc 2 (La 8 8))] (Fresh false);
   mkTurn (times 9 0) (Fresh false); mkTurn [Start 0 (OpWrite 0 20 [Byte 7])] (Fresh false);
   mkTurn [Start 2 (OpDealloc 1 (La 24 8)); Go 2 false] (Fresh false)].
Definition wt : e_W Et := mkT (cfinal others_at 3 before) [] (cevents others_at 3 before) scramble.
Lemma wt_ready : ready Et [] wt.
Proof.
  apply (threading_ready _ _ _ 3 before); [apply big_ok|apply cfinal_reached, big_ok|vm_compute; reflexivity].
Qed.
