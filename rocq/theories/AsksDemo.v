(** Concrete cases for C79. *)
From Verif Require Import Base BaseFacts Alloc AllocFacts Arena BlinkAlloc History HistoryFacts Setup SetupFacts Concrete
  Blink BlinkInv BlinkEnv BlinkYield BlinkProps BlinkDemo Asks AsksFacts AsksMain.

Definition En : env := noting Eo.
(** A [Blink] that has been used before. *)
Definition s_used : bl (e_W En) := last_state (E := En) (w0, []) usual.

(** What an operation adds to the notes, oldest first. *)
Definition calls_of (o : bop) : list uevent :=
  match erun1 En o s_used with
  | ORet _ s' | OPanic s' => rev (firstn (length (notes s') - length (notes s_used)) (notes s'))
  | _ => []
  end.
Definition sizes (evs : list uevent) : list (bool * Z) :=
  map (fun ev => (match ev with EvAlloc _ _ => true | _ => false end, wanted ev)) evs.
Definition ended_well (o : bop) : bool := match erun1 En o s_used with ORet _ _ => true | _ => false end.

(** Nothing is known in advance; the exact number is; a wrong upper bound. *)
Definition unknown (n : nat) : script := yields 0 (upto n) done.
Fixpoint counted (n : nat) : script :=
  match n with O => SEnd 0 (Some 0) | S n' => SNext (Z.of_nat n) (Some (Z.of_nat n)) BNil (NSome 5) (counted n') end.
Fixpoint at_most_none (n : nat) : script :=
  match n with O => SEnd 0 (Some 0) | S n' => SNext 0 (Some 0) BNil (NSome 5) (at_most_none n') end.

(** The first of the two programs that follow gives back what it asked for. *)
Definition refusing : bop := BEmplace Put Try dropper fatr fatr BNil (CErr 3).
Definition panicking : bop := BEmplace Put Try dropper fatr fatr BNil CPanic.

(** An upper bound that is too low. *)
Definition misled : bop := BFromIter Put Try dropper (at_most_none 28).
Definition s_misled : bl (e_W En) := match erun1 En misled s_used with ORet _ s' => s' | _ => s_used end.
Lemma is_misled : erun1 En misled s_used = ORet tt s_misled.
Proof.
  assert (X : ended_well misled = true) by (vm_compute; reflexivity). revert X. unfold ended_well, s_misled.
  destruct (erun1 En misled s_used) as [[] s'| | |]; [reflexivity|discriminate..].
Qed.
Lemma false_hints : exists E k tr T it s s', env_ok E /\ 0 < t_size T /\ plain it = true /\ truthful it = false /\
  ends (erun1 (noting E) (BFromIter k tr T it) s) s' /\ lead it = 28%nat /\ length (notes s') = (20 + length (notes s))%nat.
Proof.
  exists Eo, Put, Try, dropper, (at_most_none 28), s_used, s_misled. split; [apply own_env_ok|]. split; [reflexivity|]. split; [reflexivity|].
  split; [reflexivity|]. split; [left; exact is_misled|]. split; [reflexivity|]. vm_compute. reflexivity.
Qed.
