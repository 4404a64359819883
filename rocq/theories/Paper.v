(** [BlinkAlloc] on paper: what the crate's documentation describes, as plain
    arithmetic on addresses.

    There is no memory here, no header, no chain of pointers, and nothing of the
    code: a state is a list of chunks (each with its address, its length and the
    first address in it that has not been given out), the blocks the client
    owns, and the calls made to the underlying allocator.  Every operation says
    exactly which address is answered, what becomes of the chunks, and which
    calls are made.

    Property C77 says that the model of the code does exactly this.

    The rules, from the documentation:
    - README.md 9-38: blocks are taken from the newest chunk by moving a cursor
      (src/arena/mod.rs 283-354); when it is full, a new and larger chunk is
      requested (460-500, with the sizes of 163-169 and 463-489); memory comes
      back by [reset] only, which keeps the newest chunk and returns the others
      (535-559).
    - src/arena/mod.rs 356-424: a block at the cursor grows in place, a block
      that does not grow stays where it is. *)
From Verif Require Import Base Alloc History.

Record pchunk := mkP {
  p_at : Z;       (* its first byte *)
  p_len : Z;      (* its length *)
  p_free : Z      (* the first address not given out yet *)
}.

Record paper := mkPaper {
  p_chunks : list pchunk;            (* newest first *)
  p_tab : list (option ublock);      (* the blocks of the client *)
  p_calls : list uevent              (* calls to the underlying allocator, latest first *)
}.

(** A chunk begins with four words of bookkeeping. *)
Definition p_first (k : pchunk) : Z := p_at k + 32.
Definition p_end (k : pchunk) : Z := p_at k + p_len k.

(** The least multiple of [a] that is at least [n]. *)
Definition least_multiple (n a : Z) : Z := (n + (a - 1)) / a * a.

(** How many bytes chunks have room for. *)
Definition space (ks : list pchunk) : Z := fold_right (fun k n => (p_end k - p_first k) + n) 0 ks.

Section Paper.
  Variable min : Z.          (* the configured chunk size *)
  Variable smax : Z.         (* the largest request of the client *)
  Variable S : strategy.     (* the underlying allocator *)

  (** The size of the next chunk: the header, room for alignments above 8, and
      - for the first chunk the configured size or the request if that is larger,
      - later as much as all chunks but the newest have room for (at least the
        configured size) and the request (at least 64 bytes);
      rounded up to a power of two below 16 KB and to a multiple of 16 KB above,
      and then to a multiple of 8.  There is no chunk when that overflows. *)
  Definition chunk_size (ks : list pchunk) (l : Layout) : option Z :=
    let n := 32 + (if 8 <? l_align l then l_align l else 0) +
             match ks with
             | [] => Z.max min (l_size l)
             | _ :: older => Z.max min (space older) + Z.max (l_size l) 64
             end in
    if USIZE_MAX <? n then None else
    let s := if n <? 2 ^ 14 then 2 ^ Z.log2_up n
             else if USIZE_MAX <? n + (2 ^ 14 - 1) then n
             else least_multiple n (2 ^ 14) in
    if USIZE_MAX <? s + 7 then None else Some (least_multiple s 8).

  (** A block of a new chunk. *)
  Definition fresh (ks : list pchunk) (l : Layout) (tr : list uevent)
    : option Z * list pchunk * list uevent :=
    match chunk_size ks l with
    | None => (None, ks, tr)
    | Some n =>
        let lay := mkLayout n 8 in
        match S.(st_alloc) tr lay with
        | None => (None, ks, EvAlloc lay None :: tr)
        | Some b =>
            let a := least_multiple (b_ptr b + 32) (l_align l) in
            (Some a, mkP (b_ptr b) (b_len b) (a + l_size l) :: ks, EvAlloc lay (Some b) :: tr)
        end
    end.

  (** A block of the newest chunk if it has room for it (and if the sum of its
      cursor, the size and the alignment is a number the machine can hold). *)
  Definition take (ks : list pchunk) (l : Layout) (tr : list uevent)
    : option Z * list pchunk * list uevent :=
    match ks with
    | [] => fresh ks l tr
    | k :: older =>
        let a := least_multiple (p_free k) (l_align l) in
        if (p_free k + (l_size l + (l_align l - 1)) <=? USIZE_MAX) && (a + l_size l <=? p_end k)
        then (Some a, mkP (p_at k) (p_len k) (a + l_size l) :: older, tr)
        else fresh ks l tr
    end.

  (** Resizing the block at [p]: it stays where it is when neither size nor
      alignment increases, and keeps its length; it grows where it is when it is
      the last block of the newest chunk and the chunk has room; otherwise it
      moves. *)
  Definition moves (ks : list pchunk) (p : Z) (old new : Layout) (tr : list uevent)
    : option block * list pchunk * list uevent :=
    let elsewhere :=
      match take ks new tr with
      | (r, ks', tr') => (option_map (fun a => mkBlock a (l_size new)) r, ks', tr')
      end in
    if l_align new <=? l_align old then
      if l_size new <=? l_size old then (Some (mkBlock p (l_size old)), ks, tr)
      else match ks with
           | k :: older =>
               if (p_free k =? p + l_size old) && (p + l_size new <=? p_end k)
               then (Some (mkBlock p (l_size new)), mkP (p_at k) (p_len k) (p + l_size new) :: older, tr)
               else elsewhere
           | [] => elsewhere
           end
    else elsewhere.

  (** Giving chunks back, newest first. *)
  Fixpoint give_back (ks : list pchunk) (tr : list uevent) : list uevent :=
    match ks with
    | [] => tr
    | k :: ks' => give_back ks' (EvDealloc (p_at k) (mkLayout (p_len k) 8) :: tr)
    end.

  (** The client's operations (History.v): those that break the rules do nothing. *)
  Definition paper_step (o : op) (p : paper) : option block * paper :=
    match o with
    | OpAlloc l _ =>
        if req_okb smax l then
          match take (p_chunks p) l (p_calls p) with
          | (Some a, ks, tr) =>
              (Some (mkBlock a (l_size l)), mkPaper ks (p_tab p ++ [Some (mkU a (l_size l) l)]) tr)
          | (None, ks, tr) => (None, mkPaper ks (p_tab p) tr)
          end
        else (None, p)
    | OpWrite _ _ _ => (None, p)
    | OpDealloc h l =>
        match get h (p_tab p) with
        | Some u =>
            if fitsb l u then (None, mkPaper (p_chunks p) (set_nth h None (p_tab p)) (p_calls p))
            else (None, p)
        | None => (None, p)
        end
    | OpResize h old new =>
        match get h (p_tab p) with
        | Some u =>
            if fitsb old u && req_okb smax new then
              match moves (p_chunks p) (u_ptr u) old new (p_calls p) with
              | (Some b, ks, tr) =>
                  (Some b, mkPaper ks (set_nth h (Some (mkU (b_ptr b) (b_len b) new)) (p_tab p)) tr)
              | (None, ks, tr) => (None, mkPaper ks (p_tab p) tr)
              end
            else (None, p)
        | None => (None, p)
        end
    | OpGrowZeroed h old new =>
        (* always a new block *)
        match get h (p_tab p) with
        | Some u =>
            if fitsb old u && req_okb smax new && (l_size old <=? l_size new) then
              match take (p_chunks p) new (p_calls p) with
              | (Some a, ks, tr) =>
                  (Some (mkBlock a (l_size new)),
                   mkPaper ks (set_nth h (Some (mkU a (l_size new) new)) (p_tab p)) tr)
              | (None, ks, tr) => (None, mkPaper ks (p_tab p) tr)
              end
            else (None, p)
        | None => (None, p)
        end
    | OpReset true =>
        (None,
         match p_chunks p with
         | [] => mkPaper [] (map (fun _ => None) (p_tab p)) (p_calls p)
         | k :: older =>
             mkPaper [mkP (p_at k) (p_len k) (p_first k)] (map (fun _ => None) (p_tab p))
                     (give_back older (p_calls p))
         end)
    | OpReset false =>
        (None, mkPaper [] (map (fun _ => None) (p_tab p)) (give_back (p_chunks p) (p_calls p)))
    end.

  Fixpoint paper_run (ops : list op) (p : paper) : list (option block) * paper :=
    match ops with
    | [] => ([], p)
    | o :: ops' =>
        let (r, p1) := paper_step o p in
        let (rs, p2) := paper_run ops' p1 in (r :: rs, p2)
    end.
End Paper.

(** Nothing allocated yet. *)
Definition paper0 : paper := mkPaper [] [] [].

(** How a chunk shows in memory: its cursor and its end are the first two words
    of its header (src/arena/mod.rs 175-180). *)
Definition in_memory (m : mem) (k : pchunk) : Prop :=
  load m (p_at k) 8 = Some (p_free k) /\ load m (p_at k + 8) 8 = Some (p_end k).
