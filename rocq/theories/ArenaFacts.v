(** The arena on top of an allocator that meets the contract meets the contract
    itself: representation invariant and proofs. *)
From Coq Require Import Permutation.
From Verif Require Import Base BaseFacts Alloc AllocFacts Arena.

(** ** Arithmetic of [alloc_attempt] *)

(** The least multiple of [a] that is not below [v]. *)
Definition round_up (v a : Z) : Z := (v + (a - 1)) / a * a.

Lemma round_up_spec v a : 0 < a ->
  v <= round_up v a < v + a /\ round_up v a mod a = 0.
Proof.
  intros Ha. unfold round_up. split; [|apply Z.mod_mul; lia].
  pose proof (Z.div_mod (v + (a - 1)) a ltac:(lia)) as D.
  pose proof (Z.mod_pos_bound (v + (a - 1)) a Ha) as B. lia.
Qed.

Lemma round_up_least v a x : 0 < a -> v <= x -> x mod a = 0 -> round_up v a <= x.
Proof.
  intros Ha Hx Hm. destruct (round_up_spec v a Ha) as [B Hr].
  apply Z.mod_divide in Hm; [|lia]. apply Z.mod_divide in Hr; [|lia].
  destruct Hm as [q ->]. destruct Hr as [r E]. rewrite E in *.
  assert (r < q + 1) by (apply (Z.mul_lt_mono_pos_r a); lia).
  apply Z.mul_le_mono_nonneg_r; lia.
Qed.

Lemma round_up_id v a : 0 < a -> v mod a = 0 -> round_up v a = v.
Proof.
  intros Ha Hm. pose proof (round_up_least v a v Ha (Z.le_refl v) Hm).
  pose proof (round_up_spec v a Ha). lia.
Qed.

(** [l] can be placed in a chunk with this cursor and end. *)
Definition room (cur e : Z) (l : Layout) : bool :=
  (cur + (l_size l + (l_align l - 1)) <=? USIZE_MAX)
  && (round_up cur (l_align l) + l_size l <=? e).

Lemma align_down_round_up cur a k :
  0 <= k -> a = 2 ^ k -> 0 <= cur -> cur + (a - 1) <= USIZE_MAX ->
  align_down (cur + (a - 1)) a = round_up cur a.
Proof.
  intros Hk -> Hc Hb.
  assert (Hp : 0 < 2 ^ k) by (apply Z.pow_pos_nonneg; lia).
  assert (k <= 64).
  { apply (Z.pow_le_mono_r_iff 2); unfold USIZE_MAX in *; try lia. }
  rewrite align_down_spec by lia. unfold round_up.
  pose proof (Z.div_mod (cur + (2 ^ k - 1)) (2 ^ k) ltac:(lia)) as D. lia.
Qed.

Lemma alloc_attempt_eq {W} dbg l cur e smax (w : W) :
  req_ok smax l -> smax <= USIZE_MAX -> 0 <= cur -> e <= USIZE_MAX ->
  alloc_attempt dbg l cur e w =
  ORet (if room cur e l
        then Some (round_up cur (l_align l), round_up cur (l_align l) + l_size l)
        else None) w.
Proof.
  intros Hl Hs Hc He.
  destruct (req_ok_facts _ _ Hl) as (k & Hk & Ea & Hpos & Hsz & Hsum).
  unfold alloc_attempt, layout_sum, add_usize.
  replace (l_size l + (l_align l - 1) <=? USIZE_MAX) with true by lia.
  rewrite bind_ret. unfold room, checked_add.
  destruct (Z.leb_spec (cur + (l_size l + (l_align l - 1))) USIZE_MAX) as [L|G];
    [|reflexivity]. cbn [andb].
  unfold sub_usize at 1.
  replace (l_size l <=? cur + (l_size l + (l_align l - 1))) with true by lia.
  rewrite bind_ret.
  replace (cur + (l_size l + (l_align l - 1)) - l_size l) with (cur + (l_align l - 1)) by lia.
  rewrite (align_down_round_up cur (l_align l) k) by lia.
  destruct (round_up_spec cur (l_align l) Hpos) as [B _].
  set (r := round_up cur (l_align l)) in *.
  unfold debug_assert. replace (cur <=? r) with true by lia. rewrite andb_false_r, bind_ret.
  unfold sub_usize. replace (cur <=? r) with true by lia. rewrite bind_ret.
  replace (r - cur <? l_align l) with true by lia. rewrite andb_false_r, bind_ret.
  unfold add_usize. replace (r + l_size l <=? USIZE_MAX) with true by lia. rewrite bind_ret.
  destruct (Z.leb_spec (r + l_size l) e) as [L2|G2].
  - replace (e <? r + l_size l) with false by lia.
    unfold ptr_add. replace (cur + (r - cur)) with r by lia.
    replace (r <=? USIZE_MAX) with true by lia. rewrite bind_ret.
    replace (r + l_size l <=? USIZE_MAX) with true by lia. reflexivity.
  - replace (e <? r + l_size l) with true by lia. reflexivity.
Qed.

Lemma mload_eq {W} (A : Allocator W) a n v w :
  load (al_mem A w) a n = Some v -> mload A a n w = ORet v w.
Proof. intros H. unfold mload. rewrite H. reflexivity. Qed.

Lemma chunk_alloc_eq {W} (A : Allocator W) dbg p l cur e smax w :
  req_ok smax l -> smax <= USIZE_MAX -> 0 <= cur -> e <= USIZE_MAX ->
  load (al_mem A w) (p + CURSOR) 8 = Some cur ->
  load (al_mem A w) (p + END) 8 = Some e ->
  chunk_alloc A dbg p l w =
  (let r := round_up cur (l_align l) in
   if room cur e l
   then ORet (Some (mkBlock r (l_size l)))
             (al_set_mem A w (store (al_mem A w) (p + CURSOR) 8 (r + l_size l)))
   else ORet None w).
Proof.
  intros Hl Hs Hc He L1 L2. cbv zeta.
  destruct (req_ok_facts _ _ Hl) as (k & Hk & Ea & Hpos & Hsz & Hsum).
  unfold chunk_alloc.
  rewrite (bind_eq _ _ _ _ _ (mload_eq A _ _ _ _ L1)).
  rewrite (bind_eq _ _ _ _ _ (mload_eq A _ _ _ _ L2)).
  rewrite (bind_eq _ _ _ _ _ (alloc_attempt_eq dbg l cur e smax w Hl Hs Hc He)).
  destruct (room cur e l) eqn:R; [|reflexivity].
  destruct (round_up_spec cur (l_align l) Hpos) as [B Hm].
  set (r := round_up cur (l_align l)) in *.
  unfold cell_cas_weak.
  unfold bind at 1. unfold bind at 1. rewrite (mload_eq A _ _ _ _ L1).
  unfold debug_assert at 1. rewrite Z.eqb_refl, andb_false_r, bind_ret.
  unfold mstore at 1.
  unfold sub_usize. replace (r <=? r + l_size l) with true by lia. rewrite bind_ret.
  replace (r + l_size l - r) with (l_size l) by lia.
  unfold debug_assert. replace (l_size l <=? l_size l) with true by lia.
  rewrite Hm. rewrite Z.eqb_refl, andb_false_r, !bind_ret. reflexivity.
Qed.

(** ** Representation *)

(** A chunk: the block it occupies in the underlying allocator, and the cursor. *)
Record chunk := mkChunk { c_u : ublock; c_cur : Z }.

Definition c_ptr (c : chunk) : Z := u_ptr (c_u c).
Definition c_base (c : chunk) : Z := c_ptr c + HDR.
Definition c_end (c : chunk) : Z := c_ptr c + u_len (c_u c).
Definition c_cap (c : chunk) : Z := c_end c - c_base c.

Definition head_ptr (cs : list chunk) : option Z :=
  match cs with [] => None | c :: _ => Some (c_ptr c) end.

Fixpoint sum_caps (cs : list chunk) : Z :=
  match cs with [] => 0 | c :: cs' => c_cap c + sum_caps cs' end.

(** The header of [c] is intact and holds these values. *)
Definition hdr (m : mem) (c : chunk) (prev : option Z) (cum : Z) : Prop :=
  load m (c_ptr c + CURSOR) 8 = Some (c_cur c) /\
  load m (c_ptr c + END) 8 = Some (c_end c) /\
  load m (c_ptr c + PREV) 8 = Some (ptr_opt prev) /\
  load m (c_ptr c + CUM) 8 = Some cum.

Definition cwf (c : chunk) : Prop :=
  l_align (u_layout (c_u c)) = HDR_ALIGN /\ HDR <= l_size (u_layout (c_u c)) /\
  c_base c <= c_cur c <= c_end c.

(** The chain of chunks, root first. *)
Fixpoint chain (m : mem) (cs : list chunk) : Prop :=
  match cs with
  | [] => True
  | c :: cs' => cwf c /\ hdr m c (head_ptr cs') (sum_caps cs') /\ chain m cs'
  end.

Definition in_chunk (c : chunk) (u : ublock) : Prop :=
  c_base c <= u_ptr u /\ u_ptr u + u_len u <= c_cur c.

Definition placed (cs : list chunk) (us : list ublock) : Prop :=
  Forall (fun u => exists c, In c cs /\ in_chunk c u) us.

Lemma hdr_ext m m' c prev cum :
  (forall x, c_ptr c <= x < c_base c -> m' x = m x) ->
  hdr m c prev cum -> hdr m' c prev cum.
Proof.
  unfold hdr, c_base, CURSOR, END, PREV, CUM, HDR. intros H (H1 & H2 & H3 & H4).
  repeat split.
  - rewrite <- H1. apply load_ext; [lia|]. intros x Hx. apply H. lia.
  - rewrite <- H2. apply load_ext; [lia|]. intros x Hx. apply H. lia.
  - rewrite <- H3. apply load_ext; [lia|]. intros x Hx. apply H. lia.
  - rewrite <- H4. apply load_ext; [lia|]. intros x Hx. apply H. lia.
Qed.

Lemma chain_ext m m' cs :
  (forall c x, In c cs -> c_ptr c <= x < c_base c -> m' x = m x) ->
  chain m cs -> chain m' cs.
Proof.
  induction cs as [|c cs IH]; cbn [chain]; [auto|].
  intros H (H1 & H2 & H3). split; [exact H1|]. split.
  - apply (hdr_ext m); [|exact H2]. intros x Hx. apply (H c); [left; reflexivity|exact Hx].
  - apply IH; [|exact H3]. intros c' x Hc. apply H. right; exact Hc.
Qed.

(** Sizes of disjoint blocks add up to at most the address range. *)
Fixpoint sum_len (us : list ublock) : Z :=
  match us with [] => 0 | u :: us' => u_len u + sum_len us' end.

Lemma sum_len_perm us us' : Permutation us us' -> sum_len us = sum_len us'.
Proof. intros P. induction P; cbn [sum_len]; lia. Qed.

Lemma sum_len_app us us' : sum_len (us ++ us') = sum_len us + sum_len us'.
Proof. induction us; cbn [sum_len app]; lia. Qed.

Lemma filter_split {T} (f : T -> bool) l :
  Permutation l (filter f l ++ filter (fun x => negb (f x)) l).
Proof.
  induction l as [|a l IH]; cbn [filter]; [constructor|].
  destruct (f a); cbn [negb].
  - cbn [app]. constructor. exact IH.
  - rewrite IH at 1. apply Permutation_middle.
Qed.

Lemma disjoint_sum n : forall us lo hi,
  (length us <= n)%nat -> pairwise disjoint_u us -> lo <= hi ->
  Forall (fun u => 0 < u_len u /\ lo <= u_ptr u /\ u_ptr u + u_len u <= hi) us ->
  sum_len us <= hi - lo.
Proof.
  induction n as [|n IH]; intros us lo hi Hn Hd Hlh Hf.
  - destruct us; cbn in *; lia.
  - destruct us as [|u us]; cbn [sum_len]; [lia|].
    destruct Hd as [Hd1 Hd2]. inversion Hf as [|? ? Hu Hf']; subst.
    set (f := fun v => u_ptr v <? u_ptr u).
    pose proof (filter_split f us) as P.
    rewrite (sum_len_perm _ _ P), sum_len_app.
    apply (pairwise_perm _ disjoint_u_sym _ _ P) in Hd2.
    apply pairwise_app in Hd2. destruct Hd2 as (D1 & D2 & _).
    rewrite Forall_forall in Hf', Hd1.
    assert (Hlen : (length (filter f us) <= n)%nat /\
                   (length (filter (fun x => negb (f x)) us) <= n)%nat).
    { apply Permutation_length in P. rewrite app_length in P. cbn in Hn. lia. }
    assert (S1 : sum_len (filter f us) <= u_ptr u - lo).
    { apply IH; [apply Hlen|exact D1|lia|]. rewrite Forall_forall.
      intros v Hv. apply filter_In in Hv. destruct Hv as [Hv Ev].
      specialize (Hf' v Hv). cbn in Hf'.
      specialize (Hd1 v Hv (u_ptr u)). unfold disjoint_u, in_u in Hd1.
      unfold f in Ev. lia. }
    assert (S2 : sum_len (filter (fun x => negb (f x)) us) <= hi - (u_ptr u + u_len u)).
    { apply IH; [apply Hlen|exact D2|lia|]. rewrite Forall_forall.
      intros v Hv. apply filter_In in Hv. destruct Hv as [Hv Ev].
      specialize (Hf' v Hv). cbn in Hf'.
      specialize (Hd1 v Hv (u_ptr v)). unfold disjoint_u, in_u in Hd1.
      unfold f in Ev. lia. }
    lia.
Qed.

Lemma sum_caps_len cs :
  Forall (fun c => HDR <= u_len (c_u c)) cs -> 0 <= sum_caps cs <= sum_len (map c_u cs).
Proof.
  induction 1 as [|c cs H _ IH]; cbn [sum_caps sum_len map]; [lia|].
  unfold c_cap, c_end, c_base, HDR in *. lia.
Qed.

(** ** The size of a new chunk *)

(** How much room [alloc] needs in a fresh chunk, header included. *)
Definition chunk_need (l : Layout) : Z :=
  l_size l + (if HDR_ALIGN <? l_align l then l_align l else 0) + HDR.

Lemma pow2_mod8 k : 3 <= k -> 2 ^ k mod 8 = 0.
Proof.
  intros H. replace k with ((k - 3) + 3) by lia. rewrite Z.pow_add_r by lia.
  change (2 ^ 3) with 8. apply Z.mod_mul; lia.
Qed.

(** The value before rounding: src/arena/mod.rs 466-481. *)
Definition chunk_raw (cum : option Z) (min : Z) (l : Layout) : Z :=
  (match cum with
   | Some c => Z.max min c + Z.max (l_size l) CHUNK_MIN_GROW_STEP
   | None => Z.max min (l_size l)
   end) + (if HDR_ALIGN <? l_align l then l_align l else 0) + HDR.

Definition chunk_round (s : Z) : Z :=
  if s <? CHUNK_POWER_OF_TWO_THRESHOLD then next_power_of_two s
  else match align_up s CHUNK_POWER_OF_TWO_THRESHOLD with Some r => r | None => s end.

Lemma next_chunk_size_raw cum min l smax :
  0 <= min -> (match cum with Some c => 0 <= c | None => True end) -> req_ok smax l ->
  next_chunk_size cum min l =
  if chunk_raw cum min l <=? USIZE_MAX then Some (chunk_round (chunk_raw cum min l)) else None.
Proof.
  intros Hmin Hcum Hl. destruct (req_ok_facts _ _ Hl) as (k & _ & _ & Hpos & Hsz & _).
  unfold next_chunk_size, chunk_raw, chunk_round, checked_add, HDR.
  assert (Hsplit : forall x s1, 0 <= x ->
    match (if s1 <=? USIZE_MAX then Some s1 else None) with
    | None => None
    | Some s1 =>
        match (if x =? 0 then Some s1 else if s1 + x <=? USIZE_MAX then Some (s1 + x) else None) with
        | None => None
        | Some s2 =>
            match (if s2 + 32 <=? USIZE_MAX then Some (s2 + 32) else None) with
            | None => None
            | Some s3 => Some (chunk_round s3)
            end
        end
    end = if s1 + x + 32 <=? USIZE_MAX then Some (chunk_round (s1 + x + 32)) else None).
  { intros x s1 Hx.
    destruct (Z.leb_spec s1 USIZE_MAX) as [L1|G1].
    - destruct (Z.eqb_spec x 0) as [->|N].
      + rewrite Z.add_0_r. destruct (Z.leb_spec (s1 + 32) USIZE_MAX); reflexivity.
      + destruct (Z.leb_spec (s1 + x) USIZE_MAX) as [L2|G2].
        * destruct (Z.leb_spec (s1 + x + 32) USIZE_MAX); reflexivity.
        * destruct (Z.leb_spec (s1 + x + 32) USIZE_MAX); [lia|reflexivity].
    - destruct (Z.leb_spec (s1 + x + 32) USIZE_MAX); [lia|reflexivity]. }
  unfold chunk_round in Hsplit.
  destruct cum as [c|].
  - destruct (HDR_ALIGN <? l_align l) eqn:E.
    + rewrite <- Hsplit by lia. replace (l_align l =? 0) with false by lia. reflexivity.
    + rewrite <- Hsplit by lia. reflexivity.
  - destruct (HDR_ALIGN <? l_align l) eqn:E.
    + rewrite <- Hsplit by lia. replace (l_align l =? 0) with false by lia.
      destruct (Z.leb_spec (Z.max min (l_size l)) USIZE_MAX); [reflexivity|].
      destruct (Z.leb_spec (Z.max min (l_size l) + l_align l) USIZE_MAX); [lia|reflexivity].
    + rewrite <- Hsplit by lia. cbn [Z.eqb].
      destruct (Z.leb_spec (Z.max min (l_size l)) USIZE_MAX); [reflexivity|].
      destruct (Z.leb_spec (Z.max min (l_size l) + 32) USIZE_MAX); [lia|reflexivity].
Qed.

(** The rounding: never down, by less than a factor of two or by less than
    16384, and to a multiple of 8 unless at the very end of the address space. *)
Lemma chunk_round_spec s :
  HDR <= s <= USIZE_MAX ->
  s <= chunk_round s <= USIZE_MAX /\ chunk_round s < s + 2 ^ 14 /\
  (s + (2 ^ 14 - 1) <= USIZE_MAX -> chunk_round s mod 8 = 0).
Proof.
  unfold HDR, chunk_round, CHUNK_POWER_OF_TWO_THRESHOLD. intros Hs.
  destruct (Z.ltb_spec s (2 ^ 14)) as [L|G].
  - destruct (next_power_of_two_spec s ltac:(lia)) as (N1 & _ & N2).
    specialize (N2 ltac:(lia)).
    assert (E : next_power_of_two s mod 8 = 0).
    { unfold next_power_of_two. apply pow2_mod8.
      pose proof (Z.log2_up_le_mono 32 s ltac:(lia)) as M. change (Z.log2_up 32) with 5 in M. lia. }
    unfold USIZE_MAX. repeat split; auto; lia.
  - rewrite align_up_spec by lia.
    destruct (Z.leb_spec (s + (2 ^ 14 - 1)) USIZE_MAX) as [L2|G2].
    + pose proof (Z.mod_pos_bound (s + (2 ^ 14 - 1)) (2 ^ 14) ltac:(lia)) as B.
      repeat split; try lia.
      intros _. pose proof (Z.div_mod (s + (2 ^ 14 - 1)) (2 ^ 14) ltac:(lia)) as D.
      set (q := (s + (2 ^ 14 - 1)) / 2 ^ 14) in *.
      replace (s + (2 ^ 14 - 1) - (s + (2 ^ 14 - 1)) mod 2 ^ 14) with (q * 2048 * 8) by lia.
      apply Z.mod_mul; lia.
    + repeat split; lia.
Qed.

(** ** Configurations in which no debug assertion can fail

    [dbg]: assertions and overflow checks on; [smax]: bound on the requests of
    the client; [smax']: bound on the requests the underlying allocator accepts.
    Release builds work for everything; debug builds need a non-zero minimum
    chunk size and sizes that stay away from the end of the address space. *)
Definition cfg_ok (dbg : bool) (amax smax min smax' : Z) : Prop :=
  smax <= USIZE_MAX /\ smax' <= USIZE_MAX /\
  ((dbg = false /\ smax' = USIZE_MAX) \/
   (1 <= min /\ Z.max amax min + smax + 2 ^ 15 <= smax')).

(** The same for one request [l] to an arena with the root [root]: the minimum
    may be 0 unless the first request is for no bytes, at an alignment the
    header has anyway. *)
Definition cfg_for (dbg : bool) (amax smax min smax' : Z) (root : option Z) (l : Layout) : Prop :=
  smax <= USIZE_MAX /\ smax' <= USIZE_MAX /\
  ((dbg = false /\ smax' = USIZE_MAX) \/
   ((dbg = true -> 1 <= min \/ 1 <= l_size l \/ HDR_ALIGN < l_align l \/ root <> None) /\
    Z.max amax min + smax + 2 ^ 15 <= smax')).

(** The part of it that does not depend on the request. *)
Definition cfg_lax (dbg : bool) (amax smax min smax' : Z) : Prop :=
  smax <= USIZE_MAX /\ smax' <= USIZE_MAX /\
  ((dbg = false /\ smax' = USIZE_MAX) \/ Z.max amax min + smax + 2 ^ 15 <= smax').

Lemma cfg_lax_for {dbg amax smax min smax' root l} :
  cfg_lax dbg amax smax min smax' ->
  (dbg = true -> 1 <= min \/ 1 <= l_size l \/ HDR_ALIGN < l_align l \/ root <> None) ->
  cfg_for dbg amax smax min smax' root l.
Proof. intros (H1 & H2 & H) H3. split; [exact H1|]. split; [exact H2|]. destruct H as [H|H]; auto. Qed.

Lemma cfg_ok_lax {dbg amax smax min smax'} : cfg_ok dbg amax smax min smax' -> cfg_lax dbg amax smax min smax'.
Proof. intros (H1 & H2 & [H|[H3 H4]]); (split; [exact H1|]; split; [exact H2|]); auto. Qed.

Lemma cfg_ok_for {dbg amax smax min smax' root l} :
  cfg_ok dbg amax smax min smax' -> cfg_for dbg amax smax min smax' root l.
Proof. intros (H1 & H2 & [H|[H3 H4]]); (split; [exact H1|]; split; [exact H2|]); auto. Qed.
