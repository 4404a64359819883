(** Property C81: the contents of all memory are what PaperMem.v says.

    Vocabulary.  [paper_contents min smax S ops paper0 m] (PaperMem.v) - memory after the history
    [ops], when it was [m] before: fresh memory is undefined, writes write, zeroed blocks are
    zeroed, blocks that move take along the bytes they keep; independent of the model of the code.
    [in_headers ks x] - [x] is one of the first 32 bytes of a chunk.  [headers_right m ks] - these
    hold cursor, end, previous chunk and cumulative size of the chunks [ks], as numbers on paper.
    [chunk_moved st st' x] (PaperMemFacts.v) - [x] is in a chunk obtained or given back between the
    two states.  [HEADER] (Setup.v) is 32.  Other vocabulary as in Properties_Paper.v. *)
From Verif Require Import Base Alloc AllocFacts Arena BlinkAlloc History Setup SetupFacts Concrete Paper PaperFacts PaperDemo
  PaperMem PaperMemFacts PaperMemDemo.

(** ** C81 Every byte is accounted for *)

(** After every history, every byte of memory - of the blocks, between them, in freed and in unused
    memory - is what PaperMem.v says, except the headers of the chunks, which hold exactly the
    numbers of Paper.v. *)
Theorem C81_exact : forall su ops, setup_ok su ->
  let '(rs, p) := paper_run (su_min su) (su_smax su) (su_strat su) ops paper0 in
  exists st, do_run su ops (start su) = ORet rs st /\
    (forall x, ~ in_headers (p_chunks p) x ->
       memory st x = paper_contents (su_min su) (su_smax su) (su_strat su) ops paper0 (fun _ => Undef) x) /\
    headers_right (memory st) (p_chunks p).
Proof. exact (fun su ops Hok => contents_exact su Hok ops). Qed.
Print Assumptions C81_exact.

(** In particular one operation changes nothing but headers, chunks obtained or given back, what the
    client writes, zeroes of a zeroed block, and the bytes a moved block keeps: growing a block does
    not even touch (or copy anything into) the rest of the new block. *)
Theorem C81_footprint : forall su ops o r st st' x, setup_ok su ->
  reached su ops st -> do_step su o st = ORet r st' -> memory st' x <> memory st x ->
  (exists k, In k (held st') /\ u_ptr k <= x < u_ptr k + HEADER) \/
  chunk_moved st st' x \/
  match o, r with
  | OpAlloc l true, Some b => b_ptr b <= x < b_ptr b + l_size l
  | OpWrite h off cs, _ => exists u, get h (c_tab st) = Some u /\ u_ptr u + off <= x < u_ptr u + off + Z.of_nat (length cs)
  | OpResize _ old new, Some b => b_ptr b <= x < b_ptr b + Z.min (l_size old) (l_size new)
  | OpGrowZeroed _ old new, Some b => b_ptr b <= x < b_ptr b + l_size new
  | _, _ => False
  end.
Proof. exact (fun su ops o r st st' x Hok => footprint su Hok ops o r st st' x). Qed.
Print Assumptions C81_footprint.

(** A block that moves next to another one: nothing of its neighbour comes along. *)
Example C81_case_paper : setup_ok (demo generous) /\ results (demo generous) moving =
    [Some (mkBlock 1048608 4); None; Some (mkBlock 1048612 4); None; Some (mkBlock 1048616 6); Some (mkBlock 1048622 6)] /\
  moving_bytes =
    [Byte 1; Byte 2; Byte 3; Byte 4; Byte 5; Byte 6; Byte 7; Byte 8;
     Byte 1; Byte 2; Byte 3; Byte 4; Undef; Undef; Byte 5; Byte 6; Byte 7; Byte 8; Byte 0; Byte 0;
     Undef; Undef].
Proof. exact (conj (demo_ok generous) moving_paper). Qed.
Example C81_case_run : map (memory (final (demo generous) moving)) (addresses 1048608 22) = moving_bytes.
Proof. exact moving_run. Qed.
