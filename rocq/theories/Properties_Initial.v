(** Property C94: the first chunk, and what "initial chunk size" means.

    Vocabulary.  [start su] (Setup.v) - a new allocator made with [with_chunk_size] or
    [with_chunk_size_in], [su_min su] being the size given; [brand_new] (Initial.v) - one made
    with [new], [new_in] or [default].  [reached su ops st] - a client of a new allocator is in
    state [st] after the operations [ops]; [calls st] - the calls made to the underlying
    allocator, latest first; [held st] - the chunks held; [total_need ops] - the bytes [ops] ask
    for, with the worst padding for their alignments (size + alignment - 1 each);
    [refused] (Initial.v) - a request that was refused.  Other vocabulary as in
    Properties_Alloc.v. *)
From Verif Require Import Base Alloc AllocFacts Arena BlinkAlloc History Setup SetupFacts Concrete
  Initial InitialFacts InitialDemo.

(** ** C94 The first chunk *)

(** [new] is [with_chunk_size] with 256. *)
Theorem C94_new : forall su, su_min su = 256 -> start su = brand_new.
Proof. exact new_is_256. Qed.
Print Assumptions C94_new.

(** The size of the first chunk: 32 bytes for the header, room for alignments above 8, and the
    configured size or what is asked for if that is more.  Below 16 KB the least power of two that
    is not smaller is requested, above the least multiple of 16 KB. *)
Theorem C94_first_request : forall su l z, setup_ok su -> req_ok (su_smax su) l -> exists r st,
  do_run su [OpAlloc l z] (start su) = ORet [r] st /\
  let n := 32 + (if 8 <? l_align l then l_align l else 0) + Z.max (su_min su) (l_size l) in
  (n < 2 ^ 14 -> exists k ans, 0 <= k /\ n <= 2 ^ k < 2 * n /\ calls st = [EvAlloc (mkLayout (2 ^ k) 8) ans]) /\
  (2 ^ 14 <= n <= USIZE_MAX - (2 ^ 14 + 7) -> exists k ans, n <= k * 2 ^ 14 < n + 2 ^ 14 /\
     calls st = [EvAlloc (mkLayout (k * 2 ^ 14) 8) ans]).
Proof. exact (fun su l z Hok => first_asks su Hok l z). Qed.
Print Assumptions C94_first_request.

(** So the configured size is not the size of the first chunk: whoever asks for a power of two
    between 32 bytes and 8 KB gets a chunk of twice that size. *)
Theorem C94_twice : forall su j l z, setup_ok su -> su_min su = 2 ^ j -> 5 <= j <= 13 ->
  req_ok (su_smax su) l -> l_size l <= 2 ^ j -> l_align l <= 8 ->
  exists r st ans, do_run su [OpAlloc l z] (start su) = ORet [r] st /\
    calls st = [EvAlloc (mkLayout (2 * 2 ^ j) 8) ans].
Proof. exact (fun su j l z Hok => first_twice su Hok j l z). Qed.
Print Assumptions C94_twice.

(** What it does mean: clients that ask for no more than that in all make one successful request
    at most; *)
Theorem C94_one_chunk : forall su ops st, setup_ok su ->
  existsb is_reset ops = false -> total_need ops <= su_min su -> reached su ops st ->
  (length (held st) <= 1)%nat /\ Forall refused (tl (calls st)).
Proof. exact (fun su ops st Hok => one_chunk su Hok ops st). Qed.
Print Assumptions C94_one_chunk.

(** and once there is a chunk nothing they ask for fails, or means another request. *)
Theorem C94_served : forall su ops st o l, setup_ok su ->
  existsb is_reset ops = false -> total_need (ops ++ [o]) <= su_min su -> reached su ops st ->
  held st <> [] -> requests su st o l ->
  exists b st', do_step su o st = ORet (Some b) st' /\ calls st' = calls st.
Proof. exact (fun su ops st o l Hok => from_first su Hok ops st o l). Qed.
Print Assumptions C94_served.

(** A client of an allocator made with [new], on an underlying allocator that refuses the first
    two requests: the third one, for 512 bytes, serves everything else. *)
Example C94_case : setup_ok (demo tardy) /\ start (demo tardy) = brand_new /\
  total_need modest = 218 /\ su_min (demo tardy) = 256 /\ existsb is_reset modest = false /\
  results (demo tardy) modest =
    [None; None; Some (mkBlock 3145760 16); Some (mkBlock 3145760 40); Some (mkBlock 3145800 20); None;
     Some (mkBlock 3145820 30); None; Some (mkBlock 3145856 1)] /\
  calls (final (demo tardy) modest) =
    [EvAlloc (mkLayout 512 8) (Some (mkBlock 3145728 612)); EvAlloc (mkLayout 512 8) None; EvAlloc (mkLayout 512 8) None].
Proof. exact (conj (demo_ok tardy) (conj (new_is_256 (demo tardy) eq_refl) tardy_run)). Qed.
