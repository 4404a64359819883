(** Concrete cases for C85. *)
From Verif Require Import Base BaseFacts Alloc AllocFacts Arena BlinkAlloc History HistoryFacts Setup SetupFacts Concrete
  Blink BlinkInv BlinkEnv BlinkYield BlinkProps BlinkDemo Asks AsksFacts AsksMain AsksDemo Paper PaperFacts Diary DiaryFacts DiaryMain.

Definition page : ty := mkTy 9 4096 8 false false.
(** Values, a large one, resets. *)
Definition used_up : list bop := usual ++ [BUninit Try page; put dropper 5; BReset; put u64 1].
Notation Dz := (diary (backed (big megabytes) calm false)).
Definition s_diary : bl (e_W Dz) := last_state (E := Dz) (c_w (start (big megabytes)), []) used_up.
Definition after (o : bop) : bl (e_W Dz) := match erun1 Dz o s_diary with ORet _ s' | OPanic s' => s' | _ => s_diary end.
Notation requests s := (bw_trace (snd (fst (bl_w s)))).
Definition collecting : bop := BFromIter Put Try dropper (unknown 80).

Ltac worked_out :=
  cbn [replays];
  lazymatch goal with
  | |- _ = _ => reflexivity
  | _ => refine (ex_intro _ (_, _) _); split; [worked_out|cbn [prescribed]; first [eexists; split; lazy; reflexivity|lazy; reflexivity]]
  end.

Lemma used_up_returns : erun Dz used_up (bl_new (c_w (start (big megabytes)), [])) = ORet tt s_diary.
Proof. apply (last_run (E := Dz)). vm_compute. reflexivity. Qed.
Lemma used_up_paper : replays 256 (su_strat (big megabytes)) (entries s_diary) ([], []) ([mkP 2097152 8192 2097192], requests s_diary).
Proof.
  let ds := eval vm_compute in (entries s_diary) in change (entries s_diary) with ds.
  let tr := eval vm_compute in (requests s_diary) in change (requests s_diary) with tr.
  worked_out.
Qed.
Lemma used_up_case : setup_ok (big megabytes) /\ forallb (sound true) used_up = true /\
  erun Dz used_up (bl_new (c_w (start (big megabytes)), [])) = ORet tt s_diary /\
  replays 256 (su_strat (big megabytes)) (entries s_diary) ([], []) ([mkP 2097152 8192 2097192], requests s_diary) /\
  requests s_diary = [EvDealloc 1048576 (mkLayout 512 8); EvAlloc (mkLayout 8192 8) (Some (mkBlock 2097152 8192)); EvAlloc (mkLayout 512 8) (Some (mkBlock 1048576 512))] /\
  firstn 3 (entries s_diary) = [Asked (EvAlloc (mkLayout 8 8) (Some (mkBlock 2097184 8))); Cleared; Asked (EvAlloc (mkLayout 32 8) (Some (mkBlock 2101280 32)))].
Proof.
  split; [apply big_ok|]. split; [reflexivity|]. split; [exact used_up_returns|]. split; [exact used_up_paper|]. split; vm_compute; reflexivity.
Qed.

Definition well (o : bop) : bool := match erun1 Dz o s_diary with ORet _ _ => true | _ => false end.
Lemma well_ends o : well o = true -> ends (erun1 Dz o s_diary) (after o).
Proof. unfold well, after. destruct (erun1 Dz o s_diary) as [[] s'| | |]; try discriminate. left. reflexivity. Qed.
Lemma refusing_case : single refusing = Some (mkLayout 40 8) /\ sound true refusing = true /\ room (mkP 2097152 8192 2097192) 40 8 /\
  ends (erun1 Dz refusing s_diary) (after refusing) /\ requests (after refusing) = requests s_diary /\
  entries (after refusing) = map Asked [EvDealloc 2097192 (mkLayout 40 8); EvAlloc (mkLayout 40 8) (Some (mkBlock 2097192 40))] ++ entries s_diary.
Proof.
  split; [reflexivity|]. split; [reflexivity|]. split; [split; vm_compute; discriminate|].
  split; [apply well_ends; vm_compute; reflexivity|]. split; vm_compute; reflexivity.
Qed.
Lemma collecting_case : plain (unknown 80) = true /\ truthful (unknown 80) = true /\ lead (unknown 80) = 80%nat /\
  room (mkP 2097152 8192 2097192) (array_off true dropper + (2 * 80 + 16) * 8) (array_align true dropper) /\
  ends (erun1 Dz collecting s_diary) (after collecting) /\ requests (after collecting) = requests s_diary /\
  entries (after collecting) = map Asked
    [EvResize 2097192 (mkLayout 592 8) (mkLayout 1168 8) (Some (mkBlock 2097192 1168)); EvResize 2097192 (mkLayout 304 8) (mkLayout 592 8) (Some (mkBlock 2097192 592));
     EvResize 2097192 (mkLayout 160 8) (mkLayout 304 8) (Some (mkBlock 2097192 304)); EvAlloc (mkLayout 160 8) (Some (mkBlock 2097192 160))] ++ entries s_diary.
Proof.
  split; [vm_compute; reflexivity|]. split; [vm_compute; reflexivity|]. split; [vm_compute; reflexivity|]. split; [split; vm_compute; discriminate|].
  split; [apply well_ends; vm_compute; reflexivity|]. split; vm_compute; reflexivity.
Qed.
Definition overflowing : bop := BFromIter Put Try dropper (unknown 900).
Lemma overflowing_case : truthful (unknown 900) = true /\ ends (erun1 Dz overflowing s_diary) (after overflowing) /\
  length (requests (after overflowing)) = S (length (requests s_diary)) /\
  ~ Forall (answered_at 2097192) [hd (EvDealloc 0 (mkLayout 0 1)) (flat_map (fun d => match d with Asked ev => [ev] | Cleared => [] end) (entries (after overflowing)))].
Proof.
  split; [vm_compute; reflexivity|]. split; [apply well_ends; vm_compute; reflexivity|]. split; [vm_compute; reflexivity|].
  intros H. apply Forall_inv in H. vm_compute in H. discriminate H.
Qed.
