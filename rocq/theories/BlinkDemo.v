(** Concrete programs on a [Blink]: examples and counterexamples. *)
From Verif Require Import Base BaseFacts Alloc AllocFacts Arena BlinkAlloc BlinkFacts History HistoryFacts Setup SetupFacts Concrete
  Blink BlinkInv BlinkReset BlinkOps BlinkIter BlinkMain BlinkEnv BlinkLog BlinkYield BlinkProps BlinkFate.

(** ** Allocators *)

(** A debug build over a bottom allocator that takes any layout (C18). *)
Definition big (f : list uevent -> Layout -> option block) : setup :=
  mkSetup true (2 ^ 47) ISIZE_MAX USIZE_MAX 256 (checked (2 ^ 47) f).
Lemma big_ok f : setup_ok (big f).
Proof.
  unfold setup_ok, big; cbn [su_dbg su_amax su_smax su_bmax su_min su_strat].
  split; [apply checked_honest|]. unfold USIZE_MAX, ISIZE_MAX. repeat split; try lia.
Qed.

(** Answers resize requests, too. *)
Definition checked2 (amax : Z) (f : list uevent -> Layout -> option block) : strategy :=
  mkStrategy (st_alloc (checked amax f))
    (fun tr p old new =>
       match f tr new, remove_fit p old (outstanding tr) with
       | Some b, Some us => if good_answer amax us new b then Some b else None
       | _, _ => None
       end).
Lemma checked2_honest amax f : honest amax (checked2 amax f).
Proof.
  split; [apply (proj1 (checked_honest amax f))|]. intros tr p old new b us. cbn. destruct (f tr new) as [b'|]; [|discriminate].
  intros X E. rewrite E in X. destruct (good_answer amax us new b') eqn:G; [|discriminate]. inversion X; subst.
  apply good_answer_ok. exact G.
Qed.
(** Every block is 100 bytes longer than asked for. *)
Definition roomy : setup := mkSetup true (2 ^ 47) ISIZE_MAX USIZE_MAX 256 (checked2 (2 ^ 47) generous).
Lemma roomy_ok : setup_ok roomy.
Proof.
  unfold setup_ok, roomy; cbn [su_dbg su_amax su_smax su_bmax su_min su_strat].
  split; [apply checked2_honest|]. unfold USIZE_MAX, ISIZE_MAX. repeat split; try lia.
Qed.

(** No destructor panics; those of payload 13 do. *)
Definition calm (id v : Z) : bool := false.
Definition unlucky (id v : Z) : bool := v =? 13.

Definition own_env (f : list uevent -> Layout -> option block) (bomb : Z -> Z -> bool) : env := owned (big f) bomb.
Definition fresh (f : list uevent -> Layout -> option block) : AW (W := bworld) := c_w (start (big f)).
Lemma own_env_ok f bomb : env_ok (own_env f bomb).
Proof. apply owned_ok; [apply big_ok|]. cbn. lia. Qed.
Lemma fresh_ready f bomb : ready (own_env f bomb) [] (fresh f).
Proof. exists []. split; [apply (start_inv (big f) (big_ok f))|]. right. reflexivity. Qed.

Definition roomy_env : env := foreign roomy calm.
Lemma roomy_env_ok : env_ok roomy_env.
Proof. apply foreign_ok; [apply roomy_ok|]. cbn. unfold ISIZE_MAX, USIZE_MAX. lia. Qed.
Lemma roomy_ready : ready roomy_env [] bworld0.
Proof.
  exists []. split; [|right; reflexivity]. cbn. unfold base_own. split; [|exact I]. split; [|constructor]. split; [constructor|]. split; constructor.
Qed.

(** A [BlinkAlloc] from which somebody else holds two blocks. *)
Definition others : cst (AW (W := bworld)) :=
  final (big megabytes) [OpAlloc (mkLayout 8 8) false; OpWrite 0 0 [Byte 7]; OpAlloc (mkLayout 40 4) true].
Definition others_env : env := borrowed (big megabytes) calm.
Lemma others_env_ok : env_ok others_env.
Proof. apply borrowed_ok; [apply big_ok|]. cbn. lia. Qed.
Lemma others_ready : ready others_env (live (c_tab others)) (c_w others).
Proof.
  destruct (reached_sinv (big megabytes) (big_ok _) _ _ (final_reached (big megabytes)
    [OpAlloc (mkLayout 8 8) false; OpWrite 0 0 [Byte 7]; OpAlloc (mkLayout 40 4) true] (big_ok _))) as (st & H & _).
  exists []. split; [exact H|]. left. reflexivity.
Qed.

(** ** Running programs *)
Definition last_state {E : env} (w : e_W E) (os : list bop) : bl (e_W E) :=
  match erun E os (bl_new w) with ORet _ s => s | _ => bl_new w end.
Definition returns {E : env} (w : e_W E) (os : list bop) : bool :=
  match erun E os (bl_new w) with ORet _ _ => true | _ => false end.
Lemma last_run {E : env} (w : e_W E) os : returns w os = true -> erun E os (bl_new w) = ORet tt (last_state w os).
Proof. unfold returns, last_state. destruct (erun E os (bl_new w)) as [[] s| | |]; congruence. Qed.
Lemma last_arrives {E : env} fr (w : e_W E) os : ready E fr w -> forallb (sound (e_exact E)) os = true -> returns w os = true ->
  arrives E fr w os (last_state w os).
Proof. intros. split; [assumption|]. split; [assumption|]. apply last_run. assumption. Qed.

(** The references that are alive, with type and contents. *)
Definition shown {E : env} (s : bl (e_W E)) : list (Z * list (option Z)) :=
  map (fun h => (h_id h, contents (mem_of s) h)) (live (bl_tab s)).

(** ** Types and programs *)
Definition u64 : ty := mkTy 1 8 8 false false.
Definition dropper : ty := mkTy 2 8 8 true false.
Definition boxed : ty := mkTy 3 8 8 true true.     (* such as [Box]: [None] is the null pointer *)
Definition unit_d : ty := mkTy 4 0 1 true false.   (* zero-sized with a destructor *)
(** [Result<T, ManuallyDrop<!>>], and [Result<T, ManuallyDrop<u64>>] with its discriminant. *)
Definition plainr : res := mkRes 8 8 0.
Definition fatr : res := mkRes 16 8 8.
Definition put (T : ty) (v : Z) : bop := BEmplace Put Try T plainr plainr BNil (COk v).
Fixpoint yields (lo : Z) (vs : list Z) (rest : script) : script :=
  match vs with [] => rest | v :: vs' => SNext lo None BNil (NSome v) (yields lo vs' rest) end.
Definition done : script := SEnd 0 None.
Definition upto (n : nat) : list Z := map Z.of_nat (seq 1 n).

(** Values with and without destructors; one is changed before the reset. *)
Definition usual : list bop :=
  [put dropper 5; put u64 7; BFromIter Put Try boxed (yields 1 [21; 22; 23] done); put dropper 9; BSet 0 0 6].
(** Closures and iterators that use the same [Blink]. *)
Definition nested : list bop :=
  [BEmplace Emplace Try dropper fatr fatr (BCons (put dropper 1) (BCons (put u64 2) BNil)) (COk 3);
   BFromIter Put Try dropper (SNext 0 None (BCons (put boxed 4) BNil) (NSome 5) (yields 7 [6; 8] done))].

Notation Eo := (own_env megabytes calm).
Definition w0 : e_W Eo := fresh megabytes.

(** ** Counterexamples *)

Definition clobber : bop :=
  BEmplace EmplaceNoDrop Try u64 fatr fatr (BCons (BEmplace PutNoDrop Try u64 plainr plainr BNil (COk 77)) BNil) (COk 5).
Lemma aliasing : exists E w o s hi hj x,
  env_ok E /\ ready E [] w /\ legal o = true /\ erun E [o] (bl_new w) = ORet tt s /\
  bl_log s = [ENew false 1 [Some 77]; ENew false 1 [Some 5]] /\
  bl_tab s = [Some hi; Some hj] /\ covers hi x /\ covers hj x /\ contents (mem_of s) hi = [Some 5].
Proof.
  exists Eo, w0, clobber, (last_state w0 [clobber]). eexists _, _, 1048616.
  split; [apply own_env_ok|]. split; [apply fresh_ready|]. split; [reflexivity|].
  split; [apply last_run; vm_compute; reflexivity|].
  split; [vm_compute; reflexivity|]. split; [vm_compute; reflexivity|].
  split; [unfold covers; cbn; lia|]. split; [unfold covers; cbn; lia|]. vm_compute. reflexivity.
Qed.

(** Over an allocator that returns more than asked for, some yielded elements get lost ... *)
Definition lossy : bop := BFromIter Put Try dropper (yields 0 (upto 40) done).
Lemma elements_lost : exists E w k T it s h,
  env_ok E /\ ready E [] w /\ legal (BFromIter k Try T it) = true /\ t_size T <> 0 /\ fused it = true /\
  erun E [BFromIter k Try T it] (bl_new w) = ORet tt s /\ bl_tab s = [Some h] /\
  h_cnt h = 40 /\ length (items it) = 40%nat /\
  nth_error (items it) 17 = Some 18 /\ nth_error (contents (mem_of s) h) 17 = Some None /\
  erun E [BFromIter k Try T it; BReset] (bl_new w) = OUB.
Proof.
  exists roomy_env, bworld0, Put, dropper, (yields 0 (upto 40) done), (last_state (E := roomy_env) bworld0 [lossy]). eexists.
  split; [apply roomy_env_ok|]. split; [apply roomy_ready|]. split; [reflexivity|]. split; [discriminate|]. split; [reflexivity|].
  split; [apply (last_run (E := roomy_env)); vm_compute; reflexivity|]. split; [vm_compute; reflexivity|].
  split; [reflexivity|]. split; [reflexivity|]. split; [reflexivity|]. split; vm_compute; reflexivity.
Qed.

(** ... and over [BlinkAlloc] when the iterator resumes after [None] and says less
    the second time. *)
Definition holed : script := SNext 20 None BNil (NSome 1) (SNext 0 None BNil NNone (yields 0 (map Z.of_nat (seq 2 30)) done)).
Definition resuming : bop := BFromIter Put Try dropper holed.
Lemma elements_lost_resuming : exists k T it s h,
  legal (BFromIter k Try T it) = true /\ t_size T <> 0 /\
  erun Eo [BFromIter k Try T it] (bl_new w0) = ORet tt s /\ bl_tab s = [Some h] /\
  length (somes (outs_of it)) = 31%nat /\ h_cnt h = 31 /\
  nth_error (somes (outs_of it)) 17 = Some 18 /\ nth_error (contents (mem_of s) h) 17 = Some None /\
  erun Eo [BFromIter k Try T it; BReset] (bl_new w0) = OUB.
Proof.
  exists Put, dropper, holed, (last_state w0 [resuming]). eexists.
  split; [reflexivity|]. split; [discriminate|].
  split; [apply last_run; vm_compute; reflexivity|]. split; [vm_compute; reflexivity|].
  split; [reflexivity|]. split; [reflexivity|]. split; [reflexivity|]. split; vm_compute; reflexivity.
Qed.

(** Zero-sized elements: a lying hint loses all of them; *)
Lemma zero_sized_lost : exists it s h,
  legal (BFromIter PutNoDrop Try unit_d it) = true /\ fused it = true /\ items it = [0; 0; 0] /\
  erun Eo [BFromIter PutNoDrop Try unit_d it] (bl_new w0) = ORet tt s /\ bl_tab s = [Some h] /\ h_cnt h = 0.
Proof.
  exists (yields 5 [0; 0; 0] done), (last_state w0 [BFromIter PutNoDrop Try unit_d (yields 5 [0; 0; 0] done)]). eexists.
  split; [reflexivity|]. split; [reflexivity|]. split; [reflexivity|]. split; [apply last_run; vm_compute; reflexivity|].
  split; vm_compute; reflexivity.
Qed.
(** they are dropped while they are counted, no matter what was asked for; *)
Lemma zero_sized_dropped : exists it s,
  legal (BFromIter PutNoDrop Try unit_d it) = true /\
  erun Eo [BFromIter PutNoDrop Try unit_d it] (bl_new w0) = ORet tt s /\
  bl_log s = [EYield 4 0; EEarly 4 0; EYield 4 0; EEarly 4 0; ENew false 4 [Some 0; Some 0]].
Proof.
  exists (yields 0 [0; 0] done), (last_state w0 [BFromIter PutNoDrop Try unit_d (yields 0 [0; 0] done)]).
  split; [reflexivity|]. split; [apply last_run; vm_compute; reflexivity|]. vm_compute. reflexivity.
Qed.
(** and, with dropping enabled, once more by the reset. *)
Lemma zero_sized_dropped_twice : exists it s,
  legal (BFromIter Put Try unit_d it) = true /\
  erun Eo [BFromIter Put Try unit_d it; BReset] (bl_new w0) = ORet tt s /\
  bl_log s = [EYield 4 0; EEarly 4 0; EYield 4 0; EEarly 4 0; ENew true 4 [Some 0; Some 0]; EReset; EDrop 4 0; EDrop 4 0].
Proof.
  exists (yields 0 [0; 0] done), (last_state w0 [BFromIter Put Try unit_d (yields 0 [0; 0] done); BReset]).
  split; [reflexivity|]. split; [apply last_run; vm_compute; reflexivity|]. vm_compute. reflexivity.
Qed.
(** An iterator that yields no zero-sized element panics in a debug build (drop_list.rs 67). *)
Lemma zero_sized_empty_panics : exists s, legal (BFromIter Put Try unit_d done) = true /\
  erun1 Eo (BFromIter Put Try unit_d done) (bl_new w0) = OPanic s.
Proof.
  exists (match erun1 Eo (BFromIter Put Try unit_d done) (bl_new w0) with OPanic s => s | _ => bl_new w0 end).
  split; [reflexivity|]. assert (H : match erun1 Eo (BFromIter Put Try unit_d done) (bl_new w0) with OPanic _ => true | _ => false end = true) by (vm_compute; reflexivity).
  destruct (erun1 Eo (BFromIter Put Try unit_d done) (bl_new w0)); congruence.
Qed.

(** [emplace_shared] passes [no_drop: true] (1315-1321). *)
Definition shared_put : bop := BEmplace EmplaceShared Try dropper plainr plainr BNil (COk 5).
Lemma shared_not_dropped : exists s,
  legal shared_put = true /\ sound true shared_put = true /\ t_drop dropper = true /\
  erun Eo [shared_put; BReset] (bl_new w0) = ORet tt s /\ bl_log s = [ENew false 2 [Some 5]; EReset].
Proof.
  exists (last_state w0 [shared_put; BReset]). split; [reflexivity|]. split; [reflexivity|]. split; [reflexivity|].
  split; [apply last_run; vm_compute; reflexivity|]. vm_compute. reflexivity.
Qed.

(** ** Examples *)

(** The bottom allocator has one chunk only, so that collecting fails. *)
Notation Es := (own_env stingy calm).
Definition ws : e_W Es := fresh stingy.
Definition failing : list bop := [put dropper 5; BFromIter Put Try dropper (yields 0 (upto 60) done)].
Definition failing_copy : list bop := [put u64 5; BCopy Try u64 (upto 60)].
(** Nothing can be allocated at all. *)
Notation En := (own_env nothing calm).
Definition wn : e_W En := fresh nothing.

(** Destructors of payload 13 panic. *)
Notation Eb := (own_env megabytes unlucky).
Definition wb : e_W Eb := fresh megabytes.
Definition risky : list bop := [put dropper 5; BFromIter Put Try dropper (yields 0 [1; 13; 2] done); put dropper 9].

(** The third call of [next] panics. *)
Definition breaking : bop := BFromIter Put Try dropper (yields 4 [31; 32] (SNext 0 None BNil NPanic done)).
(** [size_hint] panics when room for the ninth element is needed. *)
Definition hintless : bop := BFromIter Put Try dropper (yields 4 (upto 9) (SEnd PANICS None)).
Lemma hintless_panics : exists s', erun1 Eo hintless (bl_new w0) = OPanic s'.
Proof.
  assert (H : match erun1 Eo hintless (bl_new w0) with OPanic _ => true | _ => false end = true) by (vm_compute; reflexivity).
  destruct (erun1 Eo hintless (bl_new w0)) as [|s'| |]; try discriminate. exists s'. reflexivity.
Qed.
(** Two more elements after the first [None]. *)
Definition stuttering : script := yields 3 [41] (SNext 9 None BNil NNone (yields 0 [42; 43] done)).
(** Used by a client while somebody else uses the [BlinkAlloc], too. *)
Definition wo : e_W others_env := c_w others.
Lemma breaking_panics : exists s', erun1 Eo breaking (bl_new w0) = OPanic s'.
Proof.
  assert (H : match erun1 Eo breaking (bl_new w0) with OPanic _ => true | _ => false end = true) by (vm_compute; reflexivity).
  destruct (erun1 Eo breaking (bl_new w0)) as [|s'| |]; try discriminate. exists s'. reflexivity.
Qed.
