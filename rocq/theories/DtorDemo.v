(** Destructors that use what was put in before them: a program, and the misuse the
    documentation of [emplace_unchecked] warns of. *)
From Verif Require Import Base BaseFacts Alloc AllocFacts Arena BlinkAlloc History HistoryFacts Setup SetupFacts
  Blink BlinkInv BlinkReset BlinkOps BlinkMain BlinkEnv BlinkProps BlinkDemo Dtor DtorFacts DtorProps.

(** The third value holds references to the first two. *)
Definition linked : list bop :=
  [put dropper 5; put u64 7; BEmplace EmplaceUnchecked Try boxed plainr plainr BNil (COk 1);
   BFromIter Put Try dropper (yields 1 [21; 22] done); BSet 0 0 6].
Notation s_linked := (last_state (E := Eo) w0 linked).

(** Its destructor reads the first, writes to it, reads it again, reads the second, and
    allocates two blocks, one of which it gives back.  Destructors of the other type panic
    on 13. *)
Definition links (id a v : Z) : dprog :=
  if id =? 3 then
    DLook 0 0 (fun o => DSet 0 0 (match o with Some x => x + 100 | None => 0 end)
      (DLook 0 0 (fun _ => DLook 1 0 (fun _ =>
        DAlloc true (mkLayout 64 8) (Byte 1) (fun _ => DAlloc false (mkLayout 24 4) (Byte 2) (fun _ => DEnd false))))))
  else DEnd (v =? 13).

(** Like it, but the value written is 13. *)
Definition links13 (id a v : Z) : dprog := if id =? 3 then DSet 0 0 13 (DEnd false) else DEnd (v =? 13).

Lemma linked_arrives : arrives Eo [] w0 linked s_linked.
Proof. split; [apply fresh_ready|]. split; [reflexivity|]. apply (last_run (E := Eo)). vm_compute. reflexivity. Qed.

Definition idb (t : list (option handle)) (j : nat) : bool := match get j t with Some x => h_id x =? 3 | None => false end.
Lemma linked_third j x : get j (bl_tab s_linked) = Some x -> h_id x = 3 -> (2 <= j)%nat.
Proof.
  intros G H. destruct j as [|[|j]]; [| |lia].
  - assert (F : idb (bl_tab s_linked) 0 = false) by (vm_compute; reflexivity). unfold idb in F. rewrite G, H in F. discriminate.
  - assert (F : idb (bl_tab s_linked) 1 = false) by (vm_compute; reflexivity). unfold idb in F. rewrite G, H in F. discriminate.
Qed.
Lemma links_polite : polite links (bl_tab s_linked).
Proof.
  intros j x k v G _ _. unfold links. destruct (h_id x =? 3) eqn:E; [|exact Logic.I]. apply Z.eqb_eq in E.
  pose proof (linked_third j x G E) as L. cbn [only_older]. unfold may.
  repeat split; intros; try (left; lia).
Qed.
Lemma links13_polite : polite links13 (bl_tab s_linked).
Proof.
  intros j x k v G _ _. unfold links13. destruct (h_id x =? 3) eqn:E; [|exact Logic.I]. apply Z.eqb_eq in E.
  pose proof (linked_third j x G E) as L. split; [left; lia|exact Logic.I].
Qed.

(** The records, with addresses relative to the first value. *)
Definition records {S} (o : outcome (S * list drec) unit) : list drec :=
  match o with ORet _ d => snd d | OPanic d => snd d | _ => [] end.

(** ** Misuse: a reference to a later value *)

(** blink.rs 1335-1357: [foo] gets a reference to a string that is put in after it. *)
Definition misused : list bop := [BEmplace EmplaceUnchecked Try dropper plainr plainr BNil (COk 1); put boxed 9].
Definition prints (id a v : Z) : dprog := if id =? 2 then DLook 1 0 (fun _ => DEnd false) else DEnd false.
Lemma misuse : exists E w os s dtor,
  env_ok E /\ arrives E [] w os s /\ ~ panicky dtor /\ busy E dtor true s = OUB /\ busy E dtor false s = OUB.
Proof.
  exists Eo, w0, misused, (last_state (E := Eo) w0 misused), prints.
  split; [apply own_env_ok|]. split; [|split; [|split; vm_compute; reflexivity]].
  - split; [apply fresh_ready|]. split; [reflexivity|]. apply (last_run (E := Eo)). vm_compute. reflexivity.
  - intros (id & a & v & H). unfold prints in H. destruct (id =? 2); cbn in H; [destruct H|]; discriminate.
Qed.
