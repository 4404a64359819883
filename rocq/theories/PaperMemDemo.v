(** A concrete history for C81. *)
From Verif Require Import Base Alloc AllocFacts History Setup SetupFacts Concrete Paper PaperDemo PaperMem.

(** Two blocks are written; the first must move to grow, then a zeroed one. *)
Definition moving : list op :=
  [ OpAlloc (lay 4 1) false;                                       (* 0 *)
    OpWrite 0 0 [Byte 1; Byte 2; Byte 3; Byte 4];
    OpAlloc (lay 4 1) false;                                       (* 1, right behind it *)
    OpWrite 1 0 [Byte 5; Byte 6; Byte 7; Byte 8];
    OpResize 0 (lay 4 1) (lay 6 1);                                (* moves behind it *)
    OpGrowZeroed 1 (lay 4 1) (lay 6 1) ].                          (* and behind that *)

Definition addresses (a : Z) (n : nat) : list Z := map (fun i => a + Z.of_nat i) (seq 0 n).

Definition moving_bytes : list cell :=
  map (paper_contents (su_min (demo generous)) (su_smax (demo generous)) (su_strat (demo generous)) moving paper0
         (fun _ => Undef)) (addresses 1048608 22).

Example moving_paper : results (demo generous) moving =
    [Some (mkBlock 1048608 4); None; Some (mkBlock 1048612 4); None; Some (mkBlock 1048616 6); Some (mkBlock 1048622 6)] /\
  moving_bytes =
    [Byte 1; Byte 2; Byte 3; Byte 4;                       (* the old place keeps what it had *)
     Byte 5; Byte 6; Byte 7; Byte 8;
     Byte 1; Byte 2; Byte 3; Byte 4; Undef; Undef;         (* nothing of the neighbour came along *)
     Byte 5; Byte 6; Byte 7; Byte 8; Byte 0; Byte 0;
     Undef; Undef].
Proof. vm_compute. split; reflexivity. Qed.

Example moving_run : map (memory (final (demo generous) moving)) (addresses 1048608 22) = moving_bytes.
Proof. vm_compute. reflexivity. Qed.
