(** Concrete bottom allocators and setups, used by the examples beside the
    theorems and by the counterexamples. *)
From Verif Require Import Base BaseFacts Alloc AllocFacts Arena ArenaFacts ArenaInv ArenaOps
  BlinkAlloc BlinkFacts History HistoryFacts Setup SetupFacts.

Definition apart (u v : ublock) : bool :=
  (u_len u <=? 0) || (u_len v <=? 0)
  || (u_ptr u + u_len u <=? u_ptr v) || (u_ptr v + u_len v <=? u_ptr u).

Lemma apart_disjoint u v : apart u v = true -> disjoint_u u v.
Proof. unfold apart, disjoint_u, in_u. intros H x Hx Hy. lia. Qed.

Definition good_answer (amax : Z) (us : list ublock) (l : Layout) (b : block) : bool :=
  (0 <? b_ptr b) && (b_ptr b mod l_align l =? 0) && (l_size l <=? b_len b)
  && (b_ptr b + b_len b <=? amax) && ((0 <? l_size l) || (b_len b =? 0))
  && forallb (apart (mkU (b_ptr b) (b_len b) l)) us.

Lemma good_answer_ok amax us l b : good_answer amax us l b = true ->
  good_block amax l b /\ (l_size l = 0 -> b_len b = 0) /\
  Forall (disjoint_u (mkU (b_ptr b) (b_len b) l)) us.
Proof.
  unfold good_answer, good_block. intros H. apply andb_true_iff in H. destruct H as [H HF].
  repeat split; try lia. rewrite forallb_forall in HF. apply Forall_forall.
  intros v Hv. apply apart_disjoint, HF, Hv.
Qed.

(** Any way [f] to pick an answer becomes honest by refusing the bad ones;
    requests to resize are always refused. *)
Definition checked (amax : Z) (f : list uevent -> Layout -> option block) : strategy :=
  mkStrategy
    (fun tr l => match f tr l with
                 | Some b => if good_answer amax (outstanding tr) l b then Some b else None
                 | None => None
                 end)
    (fun _ _ _ _ => None).

Lemma checked_honest amax f : honest amax (checked amax f).
Proof.
  split.
  - intros tr l b. cbn. destruct (f tr l) as [b'|]; [|discriminate].
    destruct (good_answer amax (outstanding tr) l b') eqn:E; [|discriminate].
    intros X; inversion X; subst. apply good_answer_ok. exact E.
  - intros tr p old new b us. cbn. discriminate.
Qed.

(** Every call gets its own megabyte; bigger requests are refused. *)
Definition megabytes (tr : list uevent) (l : Layout) : option block :=
  if l_size l <=? 2 ^ 20 then Some (mkBlock (2 ^ 20 * (1 + Z.of_nat (length tr))) (l_size l)) else None.

(** The same with 100 bytes more than asked for. *)
Definition generous (tr : list uevent) (l : Layout) : option block :=
  if l_size l <=? 2 ^ 19 then Some (mkBlock (2 ^ 20 * (1 + Z.of_nat (length tr))) (l_size l + 100)) else None.

(** Only the first call succeeds. *)
Definition stingy (tr : list uevent) (l : Layout) : option block :=
  match tr with [] => megabytes tr l | _ => None end.

(** Everything refused. *)
Definition nothing (tr : list uevent) (l : Layout) : option block := None.

(** A debug build on a platform with 47-bit addresses, default chunk size, and
    a bottom allocator that insists on valid layouts. *)
Definition demo (f : list uevent -> Layout -> option block) : setup :=
  mkSetup true (2 ^ 47) (2 ^ 40) ISIZE_MAX 256 (checked (2 ^ 47) f).

Lemma demo_ok f : setup_ok (demo f).
Proof.
  unfold setup_ok, demo; cbn [su_dbg su_amax su_smax su_bmax su_min su_strat].
  split; [apply checked_honest|]. unfold USIZE_MAX, ISIZE_MAX.
  repeat split; try lia.
Qed.

(** The state after a history. *)
Definition final (su : setup) (ops : list op) : cst (AW (W := bworld)) :=
  match do_run su ops (start su) with ORet _ st => st | _ => start su end.
Definition results (su : setup) (ops : list op) : list (option block) :=
  match do_run su ops (start su) with ORet rs _ => rs | _ => [] end.

Lemma final_reached su ops : setup_ok su -> reached su ops (final su ops).
Proof.
  intros Hok. destruct (run_total su Hok ops) as (rs & st & E & _).
  exists rs. unfold final. rewrite E. reflexivity.
Qed.

Lemma final_step su ops o : setup_ok su ->
  exists r, do_step su o (final su ops) = ORet r (final su (ops ++ [o])) /\
            results su (ops ++ [o]) = results su ops ++ [r].
Proof.
  intros Hok. destruct (run_total su Hok ops) as (rs & st & E & _).
  assert (Hr : reached su ops st) by (exists rs; exact E).
  destruct (reached_step_total su Hok ops st o Hr) as (r & st' & E' & _).
  exists r. unfold final, results. rewrite E.
  assert (E2 : do_run su (ops ++ [o]) (start su) = ORet (rs ++ [r]) st').
  { unfold do_run in *. rewrite run_app, E. cbn [run]. unfold bind. unfold do_step in E'. rewrite E'. reflexivity. }
  rewrite E2. split; [exact E'|reflexivity].
Qed.

Lemma final_run su ops ops2 : setup_ok su ->
  exists rs, do_run su ops2 (final su ops) = ORet rs (final su (ops ++ ops2)) /\
             results su (ops ++ ops2) = results su ops ++ rs.
Proof.
  intros Hok. destruct (run_total su Hok ops) as (rs & st & E & _).
  assert (Hr : reached su ops st) by (exists rs; exact E).
  destruct (reached_run_total su Hok ops st ops2 Hr) as (rs2 & st2 & E2 & _).
  exists rs2. unfold final, results. rewrite E.
  assert (E3 : do_run su (ops ++ ops2) (start su) = ORet (rs ++ rs2) st2).
  { unfold do_run in *. rewrite run_app, E, E2. reflexivity. }
  rewrite E3. split; [exact E2|reflexivity].
Qed.

(** Layouts used in the examples. *)
Definition L (size align : Z) : Layout := mkLayout size align.
