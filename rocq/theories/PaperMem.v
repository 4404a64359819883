(** The contents of memory on paper: what Paper.v says about addresses, said
    about bytes.

    As in Paper.v there is nothing of the code here.  Outside of the headers of
    the chunks, memory changes only as the documentation of [Allocator] says:
    - memory from the underlying allocator is undefined, and memory given back
      to it is lost;
    - what the client writes into a block is there;
    - a zeroed block is zeroed;
    - a block that moves takes its contents along - as much as fits the smaller of
      the two sizes, and nothing else.

    Property C81 says that the model of the code does exactly this. *)
From Verif Require Import Base Alloc History Paper.

(** [x] is one of the [n] bytes at [a]. *)
Definition one_of (a n x : Z) : bool := (a <=? x) && (x <? a + n).

(** What a call to the underlying allocator does to memory. *)
Definition erased (e : uevent) (m : mem) : mem :=
  fun x =>
    match e with
    | EvAlloc _ (Some b) => if one_of (b_ptr b) (b_len b) x then Undef else m x
    | EvDealloc p l => if one_of p (l_size l) x then Undef else m x
    | _ => m x
    end.

(** What the calls [tr'] that follow the calls [tr] do (latest first). *)
Fixpoint later_calls (tr tr' : list uevent) (m : mem) : mem :=
  match tr' with
  | [] => m
  | e :: t => if Nat.leb (length tr') (length tr) then m else erased e (later_calls tr t m)
  end.

(** The client's operation [o] leads from [p] to [p'] and is answered [r]; [m] was
    the memory. *)
Definition paper_bytes (o : op) (p : paper) (r : option block) (p' : paper) (m : mem) : mem :=
  let m1 := later_calls (p_calls p) (p_calls p') m in
  fun x =>
    match o, r with
    | OpAlloc l true, Some b => if one_of (b_ptr b) (l_size l) x then Byte 0 else m1 x
    | OpWrite h off cs, _ =>
        match get h (p_tab p) with
        | Some u =>
            if (0 <=? off) && (off + Z.of_nat (length cs) <=? u_len u) &&
               one_of (u_ptr u + off) (Z.of_nat (length cs)) x
            then nth (Z.to_nat (x - (u_ptr u + off))) cs Undef
            else m x
        | None => m x
        end
    | OpResize h old new, Some b =>
        match get h (p_tab p) with
        | Some u => if one_of (b_ptr b) (Z.min (l_size old) (l_size new)) x
                    then m (u_ptr u + (x - b_ptr b)) else m1 x
        | None => m x
        end
    | OpGrowZeroed h old new, Some b =>
        match get h (p_tab p) with
        | Some u => if one_of (b_ptr b) (l_size old) x then m (u_ptr u + (x - b_ptr b))
                    else if one_of (b_ptr b) (l_size new) x then Byte 0 else m1 x
        | None => m x
        end
    | _, _ => m1 x
    end.

Section PaperMem.
  Variable min smax : Z.
  Variable S : strategy.

  Fixpoint paper_contents (ops : list op) (p : paper) (m : mem) : mem :=
    match ops with
    | [] => m
    | o :: ops' =>
        let (r, p1) := paper_step min smax S o p in
        paper_contents ops' p1 (paper_bytes o p r p1 m)
    end.
End PaperMem.

(** The bookkeeping of the chunks: the first four words of each. *)
Definition in_headers (ks : list pchunk) (x : Z) : Prop :=
  exists k, In k ks /\ p_at k <= x < p_first k.

(** The headers: cursor, end, the next older chunk, and how many bytes all older
    chunks together have room for (src/arena/mod.rs 173-180). *)
Fixpoint headers_right (m : mem) (ks : list pchunk) : Prop :=
  match ks with
  | [] => True
  | k :: older =>
      load m (p_at k) 8 = Some (p_free k) /\
      load m (p_at k + 8) 8 = Some (p_end k) /\
      load m (p_at k + 16) 8 = Some (match older with [] => 0 | k' :: _ => p_at k' end) /\
      load m (p_at k + 24) 8 = Some (space older) /\
      headers_right m older
  end.
