(** Property C74: several [BlinkAlloc]s on one underlying allocator; [into_inner].

    Vocabulary (Wraps.v).  [wrun su xs wstart] - the actions [xs] on an underlying allocator as in
    [su], starting with nothing allocated: [WNew min] makes one more [BlinkAlloc] with initial chunk
    size [min], [WUse k o] does [o] with the [k]-th (only accesses to its blocks when it has been
    unwrapped), [WUnwrap k] is [into_inner], [WDrop k] drops it, [WDirect o] uses the underlying
    allocator directly.  [wraps_ok] - [su] and the chunk sizes are such as C01-C21 allow.
    [wowns s (Some k) h u] - block [h] of the [k]-th is [u]; [wowns s None h u] - the same of direct
    blocks.  [wheld s] - the blocks of the underlying allocator that have not been given back.
    [live t] - the blocks in the table [t].  [chunks_at s x] - the addresses of the chunks of [x]: its root, then what the headers say. *)
From Coq Require Import Permutation.
From Verif Require Import Base BaseFacts Alloc AllocFacts Arena BlinkAlloc History HistoryFacts Setup SetupFacts Concrete Wraps WrapsFacts WrapsProps WrapsDemo.

(** ** C74 Several on one allocator *)

(** All actions return normally, and the contents of all blocks are those of independent buffers. *)
Theorem C74_independent_buffers : forall su xs, wraps_ok su xs ->
  exists rs s, wrun su xs wstart = ORet rs s /\ length rs = length xs /\
    wagrees s (wspecs xs (map (option_map b_len) rs) wspec0).
Proof. exact (fun su xs H => total su (proj1 H) xs (proj2 H)). Qed.
Print Assumptions C74_independent_buffers.
(** No two blocks share a byte: of the same one, of different ones - dropped ones have none, but
    unwrapped ones do -, or direct ones. *)
Theorem C74_disjoint : forall su xs rs s who1 h1 u1 who2 h2 u2, wraps_ok su xs -> wrun su xs wstart = ORet rs s ->
  wowns s who1 h1 u1 -> wowns s who2 h2 u2 -> (who1, h1) <> (who2, h2) -> disjoint_u u1 u2.
Proof.
  exact (fun su xs rs s who1 h1 u1 who2 h2 u2 H E => winv_apart su (proj1 H) s _ who1 h1 u1 who2 h2 u2
    (proj2 (reached_winv su (proj1 H) xs rs s (proj2 H) E))).
Qed.
Print Assumptions C74_disjoint.
(** Each block of one lies in a chunk of this one, behind the header, and this chunk has not been
    given back. *)
Theorem C74_placed : forall su xs rs s k x h u, wraps_ok su xs -> wrun su xs wstart = ORet rs s ->
  nth_error (ws_wraps s) k = Some x -> get h (wp_tab x) = Some u ->
  u_ok (su_amax su) u /\ exists v, In v (wheld s) /\ inside u v /\ In (u_ptr v) (chunks_at s x).
Proof.
  exact (fun su xs rs s k x h u H E => winv_placed su (proj1 H) s _ k x h u
    (proj2 (reached_winv su (proj1 H) xs rs s (proj2 H) E))).
Qed.
Print Assumptions C74_placed.
(** What is held of the underlying allocator are the chunks, each of exactly one of them, and the
    direct blocks; all calls of the underlying allocator were legal. *)
Theorem C74_accounts : forall su xs rs s, wraps_ok su xs -> wrun su xs wstart = ORet rs s ->
  Permutation (map u_ptr (wheld s)) (concat (map (chunks_at s) (ws_wraps s)) ++ map u_ptr (live (ws_tab s))) /\
  legal (su_bmax su) (bw_trace (ws_w s)).
Proof.
  exact (fun su xs rs s H E => winv_held su (proj1 H) s _ (proj2 (reached_winv su (proj1 H) xs rs s (proj2 H) E))).
Qed.
Print Assumptions C74_accounts.

(** *** Unwrapping *)

(** [into_inner] does nothing to the underlying allocator and to memory; *)
Theorem C74_unwrapping_is_silent : forall su k s r s', wstep su (WUnwrap k) s = ORet r s' ->
  ws_w s' = ws_w s /\ ws_tab s' = ws_tab s /\
  forall x, nth_error (ws_wraps s) k = Some x -> wp_fate x = Alive ->
    nth_error (ws_wraps s') k = Some (mkWrap Unwrapped (wp_arena x) (wp_tab x)).
Proof. exact unwrap_nothing. Qed.
Print Assumptions C74_unwrapping_is_silent.
(** the chunks are leaked: whatever is done afterwards, the blocks stay what and where they are, and
    none of the chunks is ever given back. *)
Theorem C74_leaks_for_ever : forall su xs rs s ys rs' s' k x, wraps_ok su (xs ++ ys) ->
  wrun su xs wstart = ORet rs s -> wrun su ys s = ORet rs' s' ->
  nth_error (ws_wraps s) k = Some x -> wp_fate x = Unwrapped ->
  nth_error (ws_wraps s') k = Some x /\ chunks_at s' x = chunks_at s x /\
  forall a, In a (chunks_at s x) -> exists u, u_ptr u = a /\ 0 < u_len u /\ In u (wheld s) /\ In u (wheld s').
Proof. exact (fun su xs rs s ys rs' s' k x H => unwrapped_for_ever su (proj1 H) xs rs s ys rs' s' k x (proj2 H)). Qed.
Print Assumptions C74_leaks_for_ever.
(** "To deallocate all chunks call [reset_final] first": then none is left. *)
Theorem C74_reset_final_first : forall su xs rs s k x, wraps_ok su xs -> wrun su xs wstart = ORet rs s ->
  nth_error (ws_wraps s) k = Some x -> wp_fate x = Alive ->
  exists rs' s' x', wrun su [WUse k (OpReset false); WUnwrap k] s = ORet rs' s' /\
    nth_error (ws_wraps s') k = Some x' /\ wp_fate x' = Unwrapped /\ ar_root (wp_arena x') = None /\ chunks_at s' x' = [].
Proof. exact (fun su xs rs s k x H => final_then_unwrap su (proj1 H) xs rs s k x (proj2 H)). Qed.
Print Assumptions C74_reset_final_first.
(** When each has been dropped or has no chunk left, everything has been given back but the direct
    blocks. *)
Theorem C74_all_returned : forall su xs rs s, wraps_ok su xs -> wrun su xs wstart = ORet rs s ->
  (forall k x, nth_error (ws_wraps s) k = Some x -> wp_fate x = Dropped \/ chunks_at s x = []) ->
  Permutation (wheld s) (live (ws_tab s)).
Proof. exact (fun su xs rs s H => all_returned su (proj1 H) xs rs s (proj2 H)). Qed.
Print Assumptions C74_all_returned.

(** Three of them and a direct block: the first is unwrapped with two chunks, which stay; the second
    is emptied and unwrapped, the third dropped. *)
Example C74_case :
  let s := wfinal dm sharing in let s' := wfinal dm (sharing ++ sharing_on) in
  wraps_ok dm (sharing ++ sharing_on) /\
  wrun dm sharing wstart = ORet (wresults dm sharing) s /\
  map (chunks_at s) (ws_wraps s) = [[4194304; 1048576]; [3145728]] /\
  map u_ptr (wheld s) = [4194304; 3145728; 2097152; 1048576] /\
  map wp_fate (ws_wraps s) = [Unwrapped; Alive] /\
  wowns s (Some 0%nat) 1%nat (mkU 4194336 1000 (L 1000 16)) /\ wowns s (Some 1%nat) 0%nat (mkU 3145760 100 (L 100 1)) /\
  wowns s None 0%nat (mkU 2097152 16 (L 16 8)) /\
  wrun dm (sharing ++ sharing_on) wstart = ORet (wresults dm (sharing ++ sharing_on)) s' /\
  map wp_fate (ws_wraps s') = [Unwrapped; Unwrapped; Dropped] /\
  map (chunks_at s') (ws_wraps s') = [[4194304; 1048576]; []; []] /\
  map u_ptr (wheld s') = [4194304; 2097152; 1048576] /\
  map (bw_mem (ws_w s')) [1048608; 1048609; 1048647; 2097152] = [Byte 1; Byte 2; Byte 5; Byte 4] /\
  bw_mem (ws_w s) 3145859 = Byte 3.
Proof.
  cbv zeta.
  assert (H : wraps_ok dm (sharing ++ sharing_on)) by (split; [apply demo_ok|apply sharing_ok; vm_compute; reflexivity]).
  split; [exact H|]. split; [apply wfinal_run; split; [apply demo_ok|apply sharing_ok; vm_compute; reflexivity]|].
  split; [vm_compute; reflexivity|]. split; [vm_compute; reflexivity|]. split; [vm_compute; reflexivity|].
  split; [|split; [|split; [vm_compute; reflexivity|]]].
  1: eexists; split; [unfold wfinal; vm_compute; reflexivity|vm_compute; reflexivity].
  1: eexists; split; [unfold wfinal; vm_compute; reflexivity|vm_compute; reflexivity].
  split; [apply wfinal_run, H|].
  split; [vm_compute; reflexivity|]. split; [vm_compute; reflexivity|]. split; [vm_compute; reflexivity|].
  split; vm_compute; reflexivity.
Qed.
(** Everything is given back when each is dropped or emptied first. *)
Example C74_case_returned :
  let xs := [WNew 256; WNew 512; WUse 0 (OpAlloc (L 40 8) false); WUse 1 (OpAlloc (L 4000 8) false); WDirect (OpAlloc (L 9 1) false);
             WUse 0 (OpReset false); WUnwrap 0; WDrop 1] in
  wraps_ok dm xs /\ wrun dm xs wstart = ORet (wresults dm xs) (wfinal dm xs) /\
  length (bw_trace (ws_w (wfinal dm xs))) = 5%nat /\
  map wp_fate (ws_wraps (wfinal dm xs)) = [Unwrapped; Dropped] /\ map (chunks_at (wfinal dm xs)) (ws_wraps (wfinal dm xs)) = [[]; []] /\
  wheld (wfinal dm xs) = [mkU 3145728 9 (L 9 1)].
Proof.
  cbv zeta.
  split; [split; [apply demo_ok|apply sharing_ok; vm_compute; reflexivity]|].
  split; [apply wfinal_run; split; [apply demo_ok|apply sharing_ok; vm_compute; reflexivity]|].
  split; [vm_compute; reflexivity|]. split; [vm_compute; reflexivity|]. split; vm_compute; reflexivity.
Qed.
