(** Programs that run out of memory in a build whose [handle_alloc_error] unwinds
    (C82). *)
From Verif Require Import Base BaseFacts Alloc AllocFacts Arena BlinkAlloc History HistoryFacts Setup SetupFacts
  Blink BlinkInv BlinkReset BlinkIter BlinkMain BlinkEnv BlinkLog BlinkYield BlinkProps BlinkUnwind BlinkDemo.

Definition panics {E : env} (o : bop) (s : bl (e_W E)) : bool := match erun1 E o s with OPanic _ => true | _ => false end.
Lemma has_panicked {E : env} o (s : bl (e_W E)) : panics o s = true -> exists s', erun1 E o s = OPanic s'.
Proof. unfold panics. destruct (erun1 E o s); try discriminate. eauto. Qed.

Definition lost_put : bop := BEmplace PutNoDrop Unwinds dropper plainr plainr BNil (COk 7).
Lemma lost_put_panics : exists s', erun1 En lost_put (bl_new wn) = OPanic s'.
Proof. apply has_panicked. vm_compute. reflexivity. Qed.

Definition lost_script : script := yields 0 (upto 60) done.
Definition lost_collect : bop := BFromIter Put Unwinds dropper lost_script.
Lemma lost_collect_panics : exists s', erun1 Es lost_collect (last_state ws [put dropper 5]) = OPanic s'.
Proof. apply has_panicked. vm_compute. reflexivity. Qed.
Lemma lost_steady : steady lost_script.
Proof.
  split; [|vm_compute; reflexivity]. intros x Hx ->. cbv in Hx.
  repeat (destruct Hx as [Hx|Hx]; [discriminate Hx|]). exact Hx.
Qed.
