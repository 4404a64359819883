(** * C45, C46, C47: the global allocators

    [strict_run], [lenient_run] - a history of a client of [UnsafeGlobalBlinkAlloc]
    ([sync = false]) or, from one thread, of [GlobalBlinkAlloc] ([sync = true]).  The
    client follows the documentation: it deallocates and reallocates a block in the mode
    it was allocated in, and does not use blink-mode blocks after a reset.  Panics are
    caught. *)
From Coq Require Import Permutation.
From Verif Require Import Base BaseFacts Alloc AllocFacts Arena BlinkAlloc History HistoryFacts Setup SetupFacts Concrete
  BlinkDemo Global GlobalFacts GlobalProps GlobalDemo.

(** ** C45 Direct-mode realloc respects the underlying allocator *)

(** It does not: [grow] is called to reduce, and [shrink] to enlarge. *)
Theorem C45_refuted : exists su, setup_ok su /\ forall sync,
  grun (bot su) (su_dbg su) sync (su_smax su) (fun _ _ => true) enlarges (gstart su) = OUB /\
  grun (bot su) (su_dbg su) sync (su_smax su) (fun _ _ => true) reduces (gstart su) = OUB.
Proof. exact direct_realloc_refuted. Qed.
Print Assumptions C45_refuted.

(** No change of the size goes well, whatever the state and the underlying allocator. *)
Theorem C45_every_change_ub : forall smax S dbg p l n s,
  p <> 0 -> layout_okb (mkLayout n (l_align l)) = true -> n <> l_size l -> g_on s = false ->
  g_realloc (base smax S) dbg p l n s = OUB.
Proof. exact direct_realloc_ub. Qed.
Print Assumptions C45_every_change_ub.
Example C45_every_change_ub_case :
  64 <> 0 /\ layout_okb (mkLayout 17 (l_align (L 16 8))) = true /\ 17 <> l_size (L 16 8) /\ g_on (g_new 256 bworld0) = false.
Proof. repeat split; try discriminate. Qed.

(** ** C46 Memory is returned to where it came from *)

(** Over an allocator that accepts any sizes in [grow] and [shrink]: every history. *)
Theorem C46_lenient : forall su sync os, setup_ok su ->
  exists rs c, lenient_run su sync os (gstart su) = ORet rs c /\ well su os rs c.
Proof. exact (fun su sync os Hok => lenient_well su Hok sync os). Qed.
Print Assumptions C46_lenient.
Example C46_lenient_case : setup_ok roomy /\
  answers (lenient_run roomy true
    [GAlloc (L 16 8) true; GWrite 0 0 [Byte 7]; GRealloc 0 48; GBlink; GAlloc (L 40 8) false; GDealloc 1; GDirect; GRealloc 0 8; GDealloc 0]
    (gstart roomy)) =
  [GPtr (2 ^ 20); GDone; GPtr (2 ^ 21); GDone; GPtr (3 * 2 ^ 20 + 32); GDone; GDone; GPtr (4 * 2 ^ 20); GDone].
Proof. split; [exact roomy_ok|]. vm_compute. reflexivity. Qed.

(** Over any allocator.  Missing: [realloc] to another size in direct mode (C45). *)
Theorem C46_strict_partial : forall su sync os, setup_ok su ->
  exists rs c, strict_run su sync os (gstart su) = ORet rs c /\ well su os rs c.
Proof. exact (fun su sync os Hok => strict_well su Hok sync os). Qed.
Print Assumptions C46_strict_partial.
Example C46_strict_case : setup_ok (demo megabytes) /\
  answers (strict_run (demo megabytes) false tour (gstart (demo megabytes))) =
  [GPtr (2 ^ 20); GDone; GDone; GPtr (2 ^ 21 + 32); GDone; GPtr (2 ^ 21 + 32); GSkipped; GPtr (2 ^ 21 + 96); GDone; GPanicked;
   GDone; GDone; GPtr (2 ^ 21 + 32); GDone; GDone; GNull; GPtr (2 ^ 22)].
Proof. split; [exact (demo_ok _)|]. vm_compute. reflexivity. Qed.

(** ** C47 Leak check before reset *)

(** In every reachable state the counter is right; exactly the resets of a debug build
    while a blink-mode block is alive panic; and then nothing has changed. *)
Theorem C47_lenient : forall su sync os, setup_ok su ->
  exists rs c, lenient_run su sync os (gstart su) = ORet rs c /\ checks su (lenient_step su sync) c.
Proof. exact (fun su sync os Hok => lenient_checks su Hok sync os). Qed.
Print Assumptions C47_lenient.
Theorem C47_strict : forall su sync os, setup_ok su ->
  exists rs c, strict_run su sync os (gstart su) = ORet rs c /\ checks su (strict_step su sync) c.
Proof. exact (fun su sync os Hok => strict_checks su Hok sync os). Qed.
Print Assumptions C47_strict.
Example C47_case : forall sync,
  let su := demo megabytes in
  su_dbg su = true /\ setup_ok su /\
  alive (strict_run su sync [GBlink; GAlloc (L 8 8) false; GAlloc (L 8 8) true; GDealloc 0] (gstart su)) = [None; Some true] /\
  answers (strict_run su sync [GBlink; GAlloc (L 8 8) false; GAlloc (L 8 8) true; GDealloc 0; GDirect; GReset; GDealloc 1; GDirect]
            (gstart su)) =
  [GDone; GPtr (2 ^ 20 + 32); GPtr (2 ^ 20 + 40); GDone; GPanicked; GPanicked; GDone; GDone].
Proof.
  intros [|]; cbv zeta; (split; [reflexivity|]; split; [exact (demo_ok _)|]; split; vm_compute; reflexivity).
Qed.
