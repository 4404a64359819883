(** Concrete cases for C94. *)
From Verif Require Import Base Alloc AllocFacts Arena BlinkAlloc History Setup SetupFacts Concrete Initial.

(** The first two requests are refused. *)
Definition tardy (tr : list uevent) (l : Layout) : option block :=
  match tr with _ :: _ :: _ => generous tr l | _ => None end.

(** 218 bytes of the 256 that [new] provides for, counting the worst padding. *)
Definition modest : list op :=
  [ OpAlloc (mkLayout 10 1) false;
    OpAlloc (mkLayout 10 1) true;
    OpAlloc (mkLayout 16 16) true;
    OpResize 0 (mkLayout 16 16) (mkLayout 40 8);
    OpAlloc (mkLayout 20 4) false;
    OpWrite 1 3 [Byte 7];
    OpGrowZeroed 1 (mkLayout 20 4) (mkLayout 30 4);
    OpDealloc 0 (mkLayout 40 8);
    OpAlloc (mkLayout 1 64) false ].

Lemma tardy_run : total_need modest = 218 /\ su_min (demo tardy) = 256 /\
  existsb is_reset modest = false /\
  results (demo tardy) modest =
    [None; None; Some (mkBlock 3145760 16); Some (mkBlock 3145760 40); Some (mkBlock 3145800 20); None;
     Some (mkBlock 3145820 30); None; Some (mkBlock 3145856 1)] /\
  calls (final (demo tardy) modest) =
    [EvAlloc (mkLayout 512 8) (Some (mkBlock 3145728 612)); EvAlloc (mkLayout 512 8) None; EvAlloc (mkLayout 512 8) None].
Proof. vm_compute. repeat split; reflexivity. Qed.
