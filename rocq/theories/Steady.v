(** A steady workload for which the arena never settles on one chunk. *)
From Coq Require Import Permutation.
From Verif Require Import Base BaseFacts Alloc AllocFacts Arena ArenaFacts ArenaInv ArenaOps
  BlinkAlloc BlinkFacts History HistoryFacts Setup SetupFacts SetupOps SetupOps2 SetupOps3 SetupProps
  Concrete.

(** A bottom allocator with three places of one megabyte each. *)
Definition slots : list Z := [2 ^ 20; 2 * 2 ^ 20; 3 * 2 ^ 20].
Definition slot_pick (tr : list uevent) (l : Layout) : option block :=
  match find (fun p => negb (existsb (fun u => u_ptr u =? p) (outstanding tr))) slots with
  | Some p => if l_size l <=? 2 ^ 20 then Some (mkBlock p (l_size l)) else None
  | None => None
  end.
Definition steady : setup := demo slot_pick.

Definition in_slot (u : ublock) : Prop := In (u_ptr u) slots /\ u_len u <= 2 ^ 20.

Lemma slot_answer tr s :
  Forall in_slot (outstanding tr) -> (length (outstanding tr) <= 2)%nat -> 0 < s <= 2 ^ 20 ->
  exists p, In p slots /\ st_alloc (su_strat steady) tr (L s 8) = Some (mkBlock p s).
Proof.
  intros Hin Hlen Hs. cbn [steady demo su_strat checked st_alloc].
  unfold slot_pick. destruct (outstanding tr) as [|u [|v [|? ?]]]; [| | |cbn in Hlen; lia].
  - exists (2 ^ 20). split; [left; reflexivity|]. cbn [find slots existsb negb].
    unfold L. cbn [l_size]. replace (s <=? 2 ^ 20) with true by lia.
    replace (good_answer (2 ^ 47) [] (mkLayout s 8) (mkBlock (2 ^ 20) s)) with true; [reflexivity|].
    unfold good_answer. cbn [b_ptr b_len l_align l_size forallb]. change (2 ^ 20 mod 8) with 0. lia.
  - inversion Hin as [|? ? [Hu Hul] _]; subst.
    assert (H : exists p, In p slots /\
      find (fun p => negb (existsb (fun u => u_ptr u =? p) [u])) slots = Some p /\
      (p mod 8 = 0) /\ 0 < p <= 2 ^ 22 /\ (p + 2 ^ 20 <= u_ptr u \/ u_ptr u + 2 ^ 20 <= p)).
    { cbn [find slots existsb orb]. destruct Hu as [<-|[<-|[<-|[]]]].
      - exists (2 * 2 ^ 20). cbn [Z.eqb Z.pow Z.mul Pos.mul Z.pow_pos Pos.iter negb orb find].
        split; [right; left; reflexivity|]. repeat split; cbn; lia.
      - exists (2 ^ 20). split; [left; reflexivity|]. repeat split; cbn; lia.
      - exists (2 ^ 20). split; [left; reflexivity|]. repeat split; cbn; lia. }
    destruct H as (p & Hp & -> & P8 & Pb & Pd). exists p. split; [exact Hp|].
    unfold L. cbn [l_size]. replace (s <=? 2 ^ 20) with true by lia.
    replace (good_answer (2 ^ 47) [u] (mkLayout s 8) (mkBlock p s)) with true; [reflexivity|].
    unfold good_answer, apart. cbn [b_ptr b_len l_align l_size forallb u_ptr u_len]. rewrite P8. lia.
  - inversion Hin as [|? ? [Hu Hul] Hin']; subst. inversion Hin' as [|? ? [Hv Hvl] _]; subst.
    assert (H : exists p, In p slots /\
      find (fun p => negb (existsb (fun u => u_ptr u =? p) [u; v])) slots = Some p /\
      (p mod 8 = 0) /\ 0 < p <= 2 ^ 22 /\ (p + 2 ^ 20 <= u_ptr u \/ u_ptr u + 2 ^ 20 <= p) /\
      (p + 2 ^ 20 <= u_ptr v \/ u_ptr v + 2 ^ 20 <= p)).
    { cbn [find slots existsb orb].
      destruct Hu as [Hu|[Hu|[Hu|[]]]]; destruct Hv as [Hv|[Hv|[Hv|[]]]]; rewrite <- Hu, <- Hv;
        [exists (2 * 2 ^ 20)|exists (3 * 2 ^ 20)|exists (2 * 2 ^ 20)
        |exists (3 * 2 ^ 20)|exists (2 ^ 20)|exists (2 ^ 20)
        |exists (2 * 2 ^ 20)|exists (2 ^ 20)|exists (2 ^ 20)];
        (split; [cbn; tauto|]); repeat split; cbn; lia. }
    destruct H as (p & Hp & -> & P8 & Pb & Pd & Pd2). exists p. split; [exact Hp|].
    unfold L. cbn [l_size]. replace (s <=? 2 ^ 20) with true by lia.
    replace (good_answer (2 ^ 47) [u; v] (mkLayout s 8) (mkBlock p s)) with true; [reflexivity|].
    unfold good_answer, apart. cbn [b_ptr b_len l_align l_size forallb u_ptr u_len]. rewrite P8. lia.
Qed.

Notation su := steady.
Definition Hok : setup_ok su := demo_ok slot_pick.

(** Allocating when the newest chunk has no room. *)
Lemma alloc_new cs st l s r st' :
  srep su cs st -> Forall in_slot (held st) -> (length (held st) <= 2)%nat ->
  req_ok (su_smax su) l -> fits_root cs l = false -> 0 < s <= 2 ^ 20 ->
  (forall s', rounded (wanted (su_min su) (held st) l) s' -> s' = s) ->
  wanted (su_min su) (held st) l <= 2 ^ 20 ->
  do_step su (OpAlloc l false) st = ORet r st' ->
  exists c p, In p slots /\ c_u c = mkU p s (L s 8) /\ c_base c + l_size l <= c_cur c /\
    srep su (c :: cs) st' /\ calls st' = EvAlloc (L s 8) (Some (mkBlock p s)) :: calls st.
Proof.
  intros HS Hin Hlen Hl Fr Hs Hround Hw E.
  destruct (step_alloc su Hok cs st l false r st' HS Hl E) as (_ & _ & _ & H).
  rewrite Fr in H. destruct H as (U & H).
  pose proof (slow_req_wanted cs (su_min su) l _ (proj1 (su_min_ok su Hok)) (srep_caps su Hok cs st HS) Hl) as Hq.
  pose proof HS as (_ & Hh & _). rewrite Hh in Hq. unfold upstream in U.
  destruct (slow_req cs (su_min su) l) as [[s' a']|].
  2: { exfalso. change USIZE_MAX with (2 ^ 64 - 1) in Hq. lia. }
  cbn [l_align l_size] in Hq. destruct Hq as (-> & Hr & _).
  apply Hround in Hr. subst s'. destruct U as (ans & T & A & An).
  destruct (slot_answer (calls st) s Hin Hlen Hs) as (p & Hp & Ep).
  change (mkLayout s 8) with (L s 8) in *. rewrite Ep in An. subst ans.
  destruct r as [b|]; [|exfalso; destruct A as [A _]; discriminate (A eq_refl)].
  destruct H as (_ & c & Ec & Eb & S1). exists c, p. split; [exact Hp|]. split.
  - destruct S1 as (_ & Hh1 & _). unfold held in Hh1. rewrite T in Hh1. cbn in Hh1.
    injection Hh1 as Ex _. exact Ex.
  - split; [rewrite Ec; lia|]. auto.
Qed.

Lemma slot_aligned p : In p slots -> p mod 8 = 0 /\ 0 < p <= 2 ^ 22.
Proof. intros [<-|[<-|[<-|[]]]]; cbn; lia. Qed.

(** One big and one small allocation, then reset. *)
Definition big : Layout := L 30000 8.
Definition small : Layout := L 16000 8.
Definition work : list op := [OpAlloc big false; OpAlloc small false].
Definition cycle : list op := work ++ [OpReset true].

(** After a reset: the only chunk has [s] bytes. *)
Definition settled (s : Z) (st : cst (AW (W := bworld))) : Prop :=
  exists c p, In p slots /\ c_u c = mkU p s (L s 8) /\ c_cur c = c_base c /\ srep su [c] st.

Lemma room_base c p s l : In p slots -> c_u c = mkU p s (L s 8) -> c_cur c = c_base c -> l_align l = 8 ->
  0 <= l_size l <= 2 ^ 20 -> 0 < s <= 2 ^ 20 ->
  room (c_cur c) (c_end c) l = (l_size l + 32 <=? s).
Proof.
  intros Hp Eu Ec Ea Hs Hs2. destruct (slot_aligned p Hp) as [P8 Pb].
  unfold room. rewrite Ec, Ea. unfold c_base, c_end, c_ptr, HDR. rewrite Eu. cbn [u_ptr u_len].
  rewrite (round_up_id (p + 32) 8); [|lia|].
  - change USIZE_MAX with (2 ^ 64 - 1). lia.
  - rewrite Z.add_mod, P8 by lia. reflexivity.
Qed.

Lemma req_small l : 0 <= l_size l <= 2 ^ 20 -> l_align l = 8 -> req_ok (su_smax su) l.
Proof. intros H E. apply req_ok_intro; rewrite ?E; [reflexivity|lia|]. cbn. lia. Qed.

Lemma rounded_16k n s k : rounded n s -> 2 ^ 14 <= n -> n <= 2 ^ 20 -> 2 ^ 14 * (k - 1) < n <= 2 ^ 14 * k ->
  s = 2 ^ 14 * k.
Proof.
  intros [R1 [R|[R|R]]] H1 H2 H3.
  - lia.
  - destruct R as (_ & M & U). apply Z.mod_divide in M; [|lia]. destruct M as [q ->]. lia.
  - change USIZE_MAX with (2 ^ 64 - 1) in R. lia.
Qed.

Lemma rounded_pow2 n s k : rounded n s -> n < 2 ^ 14 -> 0 < k -> 2 ^ (k - 1) < n <= 2 ^ k -> s = 2 ^ k.
Proof.
  intros [R1 [R|[R|R]]] H1 Hk H3.
  - destruct R as (_ & P & U). apply is_pow2_spec in P. destruct P as (j & Hj & ->).
    assert (E : 2 ^ k = 2 * 2 ^ (k - 1)).
    { replace k with ((k - 1) + 1) at 1 by lia. rewrite Z.pow_add_r by lia. lia. }
    assert (j <= k).
    { destruct (Z_le_gt_dec j k); [assumption|exfalso].
      assert (2 ^ (k + 1) <= 2 ^ j) by (apply Z.pow_le_mono_r; lia).
      rewrite Z.pow_add_r in H by lia. change (2 ^ 1) with 2 in H. lia. }
    assert (k <= j).
    { destruct (Z_le_gt_dec k j); [assumption|exfalso].
      assert (2 ^ j <= 2 ^ (k - 1)) by (apply Z.pow_le_mono_r; lia). lia. }
    f_equal. lia.
  - lia.
  - change USIZE_MAX with (2 ^ 64 - 1) in R. lia.
Qed.

Lemma run3 o1 o2 o3 st : forall rs st', do_run su [o1; o2; o3] st = ORet rs st' ->
  exists r1 s1 r2 s2 r3, do_step su o1 st = ORet r1 s1 /\ do_step su o2 s1 = ORet r2 s2 /\
    do_step su o3 s2 = ORet r3 st'.
Proof.
  intros rs st' E. destruct (run_cons su _ _ _ _ _ E) as (r1 & s1 & rs1 & E1 & E' & _).
  destruct (run_cons su _ _ _ _ _ E') as (r2 & s2 & rs2 & E2 & E'' & _).
  destruct (run_cons su _ _ _ _ _ E'') as (r3 & s3 & rs3 & E3 & E4 & _).
  cbn in E4. inversion E4; subst. eauto 10.
Qed.

(** From one chunk of 16384 bytes: both allocations need a new chunk. *)
Lemma cycle_small st r1 s1 r2 s2 r3 st' :
  settled 16384 st ->
  do_step su (OpAlloc big false) st = ORet r1 s1 -> do_step su (OpAlloc small false) s1 = ORet r2 s2 ->
  do_step su (OpReset true) s2 = ORet r3 st' ->
  settled 32768 st' /\ length (held s2) = 3%nat /\ exists e1 e2, calls s2 = e2 :: e1 :: calls st.
Proof.
  intros (c & p & Hp & Eu & Ec & HS) E1 E2 E3.
  pose proof HS as (_ & Hh & _). cbn [map] in Hh. rewrite Eu in Hh.
  assert (Hbig : req_ok (su_smax su) big) by (apply req_small; [cbn; lia|reflexivity]).
  assert (Hsmall : req_ok (su_smax su) small) by (apply req_small; [cbn; lia|reflexivity]).
  assert (Hin : Forall in_slot (held st)).
  { rewrite <- Hh. constructor; [|constructor]. split; [exact Hp|cbn; lia]. }
  destruct (alloc_new [c] st big 32768 r1 s1 HS Hin) as (c1 & p1 & Hp1 & Eu1 & Ec1 & S1 & T1);
    try assumption.
  { rewrite <- Hh. cbn. lia. }
  { cbn [fits_root]. rewrite (room_base c p 16384 big Hp Eu Ec); [reflexivity|reflexivity|cbn; lia|lia]. }
  { lia. }
  { rewrite <- Hh. intros s' Hr. apply (rounded_16k _ _ 2 Hr); cbn; lia. }
  { rewrite <- Hh. cbn. lia. }
  pose proof S1 as (_ & Hh1 & _). cbn [map] in Hh1. rewrite Eu, Eu1 in Hh1.
  assert (Hin1 : Forall in_slot (held s1)).
  { rewrite <- Hh1. constructor; [|constructor; [|constructor]]; (split; [assumption|cbn; lia]). }
  destruct (alloc_new [c1; c] s1 small 32768 r2 s2 S1 Hin1) as (c2 & p2 & Hp2 & Eu2 & Ec2 & S2 & T2);
    try assumption.
  { rewrite <- Hh1. cbn. lia. }
  { cbn [fits_root]. unfold room.
    pose proof (round_up_spec (c_cur c1) (l_align small) ltac:(reflexivity)) as [B _].
    unfold c_base, c_end, c_ptr in *. rewrite Eu1 in *. cbn [u_ptr u_len] in *.
    change (l_size small) with 16000 in *. change (l_size big) with 30000 in *. unfold HDR in *. lia. }
  { lia. }
  { rewrite <- Hh1. intros s' Hr. apply (rounded_16k _ _ 2 Hr); cbn; lia. }
  { rewrite <- Hh1. cbn. lia. }
  destruct (step_reset_keep su Hok _ s2 r3 st' S2 E3) as (_ & _ & S3).
  split; [|split].
  - exists (set_cur c2 (c_base c2)), p2. split; [exact Hp2|]. split; [exact Eu2|]. split; [reflexivity|exact S3].
  - destruct S2 as (_ & Hh2 & _). rewrite <- Hh2. reflexivity.
  - rewrite T2, T1. eauto.
Qed.

(** From one chunk of 32768 bytes: the small allocation needs a new chunk. *)
Lemma cycle_big st r1 s1 r2 s2 r3 st' :
  settled 32768 st ->
  do_step su (OpAlloc big false) st = ORet r1 s1 -> do_step su (OpAlloc small false) s1 = ORet r2 s2 ->
  do_step su (OpReset true) s2 = ORet r3 st' ->
  settled 16384 st' /\ length (held s2) = 2%nat /\ exists e1, calls s2 = e1 :: calls st.
Proof.
  intros (c & p & Hp & Eu & Ec & HS) E1 E2 E3.
  pose proof HS as (_ & Hh & _). cbn [map] in Hh. rewrite Eu in Hh.
  assert (Hbig : req_ok (su_smax su) big) by (apply req_small; [cbn; lia|reflexivity]).
  assert (Hsmall : req_ok (su_smax su) small) by (apply req_small; [cbn; lia|reflexivity]).
  destruct (step_alloc su Hok [c] st big false r1 s1 HS Hbig E1) as (_ & _ & _ & H).
  cbn [fits_root] in H. rewrite (room_base c p 32768 big Hp Eu Ec) in H; [|reflexivity|cbn; lia|lia].
  cbn in H. destruct H as (T1 & c1 & cs1 & b & Ecs & _ & Eb & S1). inversion Ecs; subst c1 cs1.
  pose proof S1 as (_ & Hh1 & _). cbn [map] in Hh1. unfold set_cur in Hh1. cbn [c_u] in Hh1. rewrite Eu in Hh1.
  assert (Hin1 : Forall in_slot (held s1)).
  { rewrite <- Hh1. constructor; [|constructor]. split; [assumption|cbn; lia]. }
  destruct (alloc_new _ s1 small 16384 r2 s2 S1 Hin1) as (c2 & p2 & Hp2 & Eu2 & Ec2 & S2 & T2);
    try assumption.
  { rewrite <- Hh1. cbn. lia. }
  { cbn [fits_root]. unfold room, set_cur, c_end, c_ptr. cbn [c_u c_cur]. rewrite Eu. cbn [u_ptr u_len].
    assert (Hb : p + 32 <= b_ptr b).
    { rewrite Eb. cbn [b_ptr]. pose proof (round_up_spec (c_cur c) 8 ltac:(lia)) as [B _].
      rewrite Ec in *. unfold c_base, c_ptr, HDR in *. rewrite Eu in *. cbn [u_ptr] in *. lia. }
    pose proof (round_up_spec (b_ptr b + 30000) (l_align small) ltac:(reflexivity)) as [B _].
    change (l_size small) with 16000 in *. lia. }
  { lia. }
  { rewrite <- Hh1. intros s' Hr. apply (rounded_pow2 _ _ 14 Hr); cbn; lia. }
  { rewrite <- Hh1. cbn. lia. }
  destruct (step_reset_keep su Hok _ s2 r3 st' S2 E3) as (_ & _ & S3).
  split; [|split].
  - exists (set_cur c2 (c_base c2)), p2. split; [exact Hp2|]. split; [exact Eu2|]. split; [reflexivity|exact S3].
  - destruct S2 as (_ & Hh2 & _). rewrite <- Hh2. reflexivity.
  - rewrite T2, T1. eauto.
Qed.

(** The first cycle, from an empty arena. *)
Lemma cycle_first r1 s1 r2 s2 r3 st' :
  do_step su (OpAlloc big false) (start su) = ORet r1 s1 -> do_step su (OpAlloc small false) s1 = ORet r2 s2 ->
  do_step su (OpReset true) s2 = ORet r3 st' ->
  settled 16384 st' /\ length (held s2) = 2%nat /\ exists e1 e2, calls s2 = [e2; e1].
Proof.
  intros E1 E2 E3.
  destruct (reached_srep su Hok [] (start su)) as (cs & HS); [exists []; reflexivity|].
  assert (cs = []) by (destruct HS as (_ & Hh & _); destruct cs; [reflexivity|discriminate]). subst cs.
  assert (Hbig : req_ok (su_smax su) big) by (apply req_small; [cbn; lia|reflexivity]).
  assert (Hsmall : req_ok (su_smax su) small) by (apply req_small; [cbn; lia|reflexivity]).
  destruct (alloc_new [] (start su) big 32768 r1 s1 HS) as (c1 & p1 & Hp1 & Eu1 & Ec1 & S1 & T1);
    try assumption.
  { constructor. }
  { cbn. lia. }
  { reflexivity. }
  { lia. }
  { intros s' Hr. apply (rounded_16k _ _ 2 Hr); cbn; lia. }
  { cbn. lia. }
  pose proof S1 as (_ & Hh1 & _). cbn [map] in Hh1. rewrite Eu1 in Hh1.
  assert (Hin1 : Forall in_slot (held s1)).
  { rewrite <- Hh1. constructor; [|constructor]; (split; [assumption|cbn; lia]). }
  destruct (alloc_new [c1] s1 small 16384 r2 s2 S1 Hin1) as (c2 & p2 & Hp2 & Eu2 & Ec2 & S2 & T2);
    try assumption.
  { rewrite <- Hh1. cbn. lia. }
  { cbn [fits_root]. unfold room.
    pose proof (round_up_spec (c_cur c1) (l_align small) ltac:(reflexivity)) as [B _].
    unfold c_base, c_end, c_ptr in *. rewrite Eu1 in *. cbn [u_ptr u_len] in *.
    change (l_size small) with 16000 in *. change (l_size big) with 30000 in *. unfold HDR in *. lia. }
  { lia. }
  { rewrite <- Hh1. intros s' Hr. apply (rounded_pow2 _ _ 14 Hr); cbn; lia. }
  { rewrite <- Hh1. cbn. lia. }
  destruct (step_reset_keep su Hok _ s2 r3 st' S2 E3) as (_ & _ & S3).
  split; [|split].
  - exists (set_cur c2 (c_base c2)), p2. split; [exact Hp2|]. split; [exact Eu2|]. split; [reflexivity|exact S3].
  - destruct S2 as (_ & Hh2 & _). rewrite <- Hh2. reflexivity.
  - rewrite T2, T1. cbn. eauto.
Qed.

Fixpoint cycles (n : nat) : list op :=
  match n with O => [] | S k => cycles k ++ cycle end.

Lemma final_cycle ops : exists r1 r2 r3,
  do_step su (OpAlloc big false) (final su ops) = ORet r1 (final su (ops ++ [OpAlloc big false])) /\
  do_step su (OpAlloc small false) (final su (ops ++ [OpAlloc big false])) = ORet r2 (final su (ops ++ work)) /\
  do_step su (OpReset true) (final su (ops ++ work)) = ORet r3 (final su (ops ++ cycle)).
Proof.
  destruct (final_step su ops (OpAlloc big false) Hok) as (r1 & E1 & _).
  destruct (final_step su (ops ++ [OpAlloc big false]) (OpAlloc small false) Hok) as (r2 & E2 & _).
  rewrite <- app_assoc in E2. change ([OpAlloc big false] ++ [OpAlloc small false]) with work in E2.
  destruct (final_step su (ops ++ work) (OpReset true) Hok) as (r3 & E3 & _).
  rewrite <- app_assoc in E3. change (work ++ [OpReset true]) with cycle in E3. eauto 10.
Qed.

Lemma never_settles n :
  (settled 16384 (final su (cycles (S n))) \/ settled 32768 (final su (cycles (S n)))) /\
  (2 <= length (held (final su (cycles n ++ work))))%nat /\
  exists e tr, calls (final su (cycles n ++ work)) = e :: tr ++ calls (final su (cycles n)).
Proof.
  induction n as [|n IH].
  - destruct (final_cycle []) as (r1 & r2 & r3 & E1 & E2 & E3).
    destruct (cycle_first _ _ _ _ _ _ E1 E2 E3) as (S1 & H1 & e1 & e2 & T1).
    cbn [cycles app] in *. rewrite H1. split; [left; exact S1|]. split; [lia|].
    exists e2, [e1]. rewrite T1. reflexivity.
  - destruct IH as (Hs & _). cbn [cycles] in *.
    destruct (final_cycle (cycles n ++ cycle)) as (r1 & r2 & r3 & E1 & E2 & E3).
    destruct Hs as [Hs|Hs].
    + destruct (cycle_small _ _ _ _ _ _ _ Hs E1 E2 E3) as (S1 & H1 & e1 & e2 & T1).
      rewrite H1, T1. split; [right; exact S1|]. split; [lia|]. exists e2, [e1]. reflexivity.
    + destruct (cycle_big _ _ _ _ _ _ _ Hs E1 E2 E3) as (S1 & H1 & e1 & T1).
      rewrite H1, T1. split; [left; exact S1|]. split; [lia|]. exists e1, []. reflexivity.
Qed.
