(** A concrete history for C77. *)
From Verif Require Import Base Alloc AllocFacts History Setup SetupFacts Concrete Paper.

Definition lay (s a : Z) : Layout := mkLayout s a.

(** Four blocks in the first chunk, one grown where it is, one moved for its
    alignment; a block too large for the chunk, one refused by the underlying
    allocator; shrinking, [grow_zeroed], freeing; [reset]. *)
Definition busy : list op :=
  [ OpAlloc (lay 10 1) false;                        (* 0 *)
    OpAlloc (lay 16 16) true;                        (* 1 *)
    OpResize 1 (lay 16 16) (lay 40 8);               (* grows in place *)
    OpResize 0 (lay 10 1) (lay 10 64);               (* must move *)
    OpWrite 0 0 [Byte 1; Byte 2];
    OpAlloc (lay 1000 8) false;                      (* 2: a new chunk *)
    OpAlloc (lay (2 ^ 21) 8) false;                  (* refused *)
    OpResize 2 (lay 1000 8) (lay 20 8);              (* stays, keeps its length *)
    OpGrowZeroed 1 (lay 40 8) (lay 50 8);            (* always moves *)
    OpDealloc 0 (lay 10 64);
    OpResize 7 (lay 1 1) (lay 2 1);                  (* no such block *)
    OpReset true;
    OpAlloc (lay 3 1) false ].

Definition on_paper : list (option block) * paper :=
  paper_run (su_min (demo generous)) (su_smax (demo generous)) (su_strat (demo generous)) busy paper0.

Example busy_paper : on_paper =
  ([Some (mkBlock 1048608 10); Some (mkBlock 1048624 16); Some (mkBlock 1048624 40);
    Some (mkBlock 1048704 10); None; Some (mkBlock 2097184 1000); None; Some (mkBlock 2097184 1000);
    Some (mkBlock 2098184 50); None; None; None; Some (mkBlock 2097184 3)],
   mkPaper [mkP 2097152 2148 2097187] [None; None; None; Some (mkU 2097184 3 (lay 3 1))]
     [EvDealloc 1048576 (lay 612 8); EvAlloc (lay 2113536 8) None;
      EvAlloc (lay 2048 8) (Some (mkBlock 2097152 2148)); EvAlloc (lay 512 8) (Some (mkBlock 1048576 612))]).
Proof. vm_compute. reflexivity. Qed.

Example busy_run : results (demo generous) busy = fst on_paper /\
  c_tab (final (demo generous) busy) = p_tab (snd on_paper) /\
  calls (final (demo generous) busy) = p_calls (snd on_paper).
Proof. vm_compute. split; [reflexivity|]. split; reflexivity. Qed.
