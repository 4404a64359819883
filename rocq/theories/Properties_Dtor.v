(** Destructors that use references and the allocator.

    Vocabulary as in Properties_Blink.v.  [dtor id a v] - the program the destructor of the
    type [id] runs when [self] is at address [a] and has the value [v]: it looks at elements
    behind references it holds, writes to them, allocates, and may panic.  [busy E dtor
    full s] - [reset] ([full]) or [drop_all] with these destructors; it also returns what was
    dropped and what destructors saw.  [polite dtor t] - destructors use only references to
    values that were put in before their own, or that are not dropped.  [went] - how it ends:
    the [Blink] is empty, its allocator can be used on, others kept their memory, and
    destructors ran on and saw what was put in or written last. *)
From Verif Require Import Base BaseFacts Alloc AllocFacts Arena BlinkAlloc History HistoryFacts Setup SetupFacts
  Blink BlinkInv BlinkReset BlinkOps BlinkMain BlinkEnv BlinkProps BlinkDemo Dtor DtorFacts DtorProps DtorDemo.

(** ** C84 What destructors may use *)

(** Destructors that keep to what the documentation of [emplace_unchecked] demands never
    meet a dead value or foreign memory, and each value is dropped once, the newest first. *)
Theorem C84_polite : forall E fr w os s dtor full, env_ok E -> arrives E fr w os s -> polite dtor (bl_tab s) ->
  match busy E dtor full s with
  | ORet _ (s', rs) => went E fr s s' rs /\ dropped rs = to_drop (bl_tab s)
  | OPanic (s', rs) => went E fr s s' rs /\ panicky dtor /\
      exists older x newer, bl_tab s = older ++ Some x :: newer /\ h_item x <> None /\ dropped rs = to_drop (Some x :: newer)
  | OAbort => panicky dtor
  | OUB => False
  end.
Proof. exact (fun E fr w os s dtor full HE => busy_ok E HE fr w os s dtor full). Qed.
Print Assumptions C84_polite.

(** Values without references, as [put] and [emplace] demand ([T: 'static]), are free to do
    the rest whatever else was put in. *)
Theorem C84_without_references : forall E fr w os s dtor full, env_ok E -> arrives E fr w os s ->
  (forall id a v, blind (dtor id a v)) -> ~ panicky dtor ->
  exists s' rs, busy E dtor full s = ORet tt (s', rs) /\ went E fr s s' rs /\ dropped rs = to_drop (bl_tab s).
Proof. exact (fun E fr w os s dtor full HE => blind_ok E HE fr w os s dtor full). Qed.
Print Assumptions C84_without_references.

(** The demand is needed: a destructor that looks at a value put in after its own finds it
    dropped. *)
Theorem C84_demand_needed : exists E w os s dtor,
  env_ok E /\ arrives E [] w os s /\ ~ panicky dtor /\ busy E dtor true s = OUB /\ busy E dtor false s = OUB.
Proof. exact misuse. Qed.
Print Assumptions C84_demand_needed.

(** Destructors that do nothing but panic or not behave as in Properties_Blink.v, in every
    state whatsoever. *)
Theorem C84_plain : forall E o s, o = BReset \/ o = BDropAll ->
  match busy E (fun id _ v => DEnd (e_bomb E id v)) (match o with BReset => true | _ => false end) s, erun1 E o s with
  | ORet _ (s1, rs), ORet _ s2 | OPanic (s1, rs), OPanic s2 =>
      s2 = mkBl (bl_w s1) (bl_root s1) (bl_tab s1) (bl_log s ++ EReset :: flat_map ev_of rs)
  | OAbort, OAbort | OUB, OUB => True
  | _, _ => False
  end.
Proof. exact busy_plain. Qed.
Print Assumptions C84_plain.

(** A destructor reads the value of another, changes it and reads it again; that one's
    destructor finds the change. *)
Example C84_case : env_ok Eo /\ arrives Eo [] w0 linked s_linked /\ polite links (bl_tab s_linked) /\
  to_drop (bl_tab s_linked) = [(2, 1048704); (2, 1048712); (3, 1048672); (2, 1048632)] /\
  records (busy Eo links true s_linked) =
  [RDrop 2 1048704 21 7; RDrop 2 1048712 22 7; RDrop 3 1048672 1 7; RSaw 0 0 (Some 6) 7; RSaw 0 0 (Some 106) 8; RSaw 1 0 (Some 7) 8;
   RDrop 2 1048632 106 8].
Proof.
  split; [apply own_env_ok|]. split; [exact linked_arrives|]. split; [exact links_polite|]. split; vm_compute; reflexivity.
Qed.

(** A destructor makes another panic. *)
Example C84_case_panics : polite links13 (bl_tab s_linked) /\
  (match busy Eo links13 true s_linked with OPanic _ => True | _ => False end) /\
  records (busy Eo links13 true s_linked) = [RDrop 2 1048704 21 7; RDrop 2 1048712 22 7; RDrop 3 1048672 1 7; RDrop 2 1048632 13 8].
Proof. split; [exact links13_polite|]. split; [vm_compute; exact Logic.I|vm_compute; reflexivity]. Qed.
