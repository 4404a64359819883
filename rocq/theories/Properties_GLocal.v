(** * C71, C72: a global allocator and the thread-local proxies made by [GlobalBlinkAlloc::local]

    [both_run su psmax nmax lax careful os] - a history of operations on a [GlobalBlinkAlloc]
    (C45-C47) and on any number of its proxies (C22), each operation as a whole.  The clients
    follow the documentation; with [careful = true] they also drop the proxies they have used
    before they call [reset] or [direct_mode].  Panics are caught. *)
From Verif Require Import Base BaseFacts Alloc AllocFacts Arena BlinkAlloc History HistoryFacts Setup SetupFacts Concrete
  BlinkDemo Proxy ProxyFacts ProxyProps ProxyDemo Global GlobalFacts GlobalProps GLocal GLocalFacts GLocalProps GLocalDemo.

(** ** C71 Proxies of a global allocator *)

(** Every history runs without undefined behaviour.  The blocks of all clients - allocated in
    either mode, or from a proxy - behave as independent buffers and never overlap; the
    direct-mode blocks come from the underlying allocator, the others lie in chunks; and the
    debug counter knows the blink-mode blocks of the global allocator's client only. *)
Theorem C71_together : forall su psmax nmax lax os, proxies_ok su psmax nmax ->
  exists rs s, both_run su psmax nmax lax true os (both_start su) = ORet rs s /\ together su os rs s.
Proof. exact (fun su psmax nmax lax os Hok => both_together su psmax nmax lax Hok os). Qed.
Print Assumptions C71_together.
Example C71_together_case : proxies_ok (big megabytes) (2 ^ 40) (2 ^ 20) /\
  presults (both_run (big megabytes) (2 ^ 40) (2 ^ 20) false true ltour (both_start (big megabytes))) =
  [RGlobal (GPtr 1048576); RProxy PDone; RGlobal GDone; RProxy (PBlock (Some (mkBlock 2097216 100))); RProxy (PBlock None); RGlobal GDone;
   RGlobal (GPtr 2097440); RGlobal GSkipped; RProxy PDone; RProxy (PBlock (Some (mkBlock 3145792 3000))); RGlobal GDone;
   RGlobal (GPtr 3149856); RProxy PDone; RGlobal GSkipped; RProxy PDone; RGlobal GPanicked; RGlobal GDone; RGlobal GDone;
   RProxy PDone; RProxy (PBlock (Some (mkBlock 3145792 8))); RGlobal GDone].
Proof. split; [exact (big_proxies _)|]. vm_compute. reflexivity. Qed.
Example C71_release_case : proxies_ok (released generous) USIZE_MAX USIZE_MAX.
Proof. exact (released_proxies _). Qed.

(** Which operations panic, in every reachable state: exactly the resets of a debug build
    while a blink-mode block of the global allocator's client is alive (nothing has changed
    then), and zero-sized allocations on a proxy in a debug build (C51). *)
Theorem C71_panics : forall su psmax nmax lax os, proxies_ok su psmax nmax ->
  exists rs s, both_run su psmax nmax lax true os (both_start su) = ORet rs s /\ panics_right su psmax nmax lax s.
Proof. exact (fun su psmax nmax lax os Hok => both_panics su psmax nmax lax Hok os). Qed.
Print Assumptions C71_panics.

(** The size recorded for later proxies never decreases, whatever happens to the global
    allocator. *)
Theorem C71_recorded : forall su psmax nmax lax os1 rs1 s1 os2 rs2 s2, proxies_ok su psmax nmax ->
  both_run su psmax nmax lax true os1 (both_start su) = ORet rs1 s1 -> both_run su psmax nmax lax true os2 s1 = ORet rs2 s2 ->
  l_max s1 <= l_max s2.
Proof. exact (fun su psmax nmax lax os1 rs1 s1 os2 rs2 s2 Hok => both_recorded su psmax nmax lax Hok os1 rs1 s1 os2 rs2 s2). Qed.
Print Assumptions C71_recorded.

(** ** C72 The safety contract of [reset] is sufficient when there are proxies *)

(** It is not: it speaks about previously allocated memory only.  A proxy without any block
    survives a reset (no check notices it); then its next block overlaps one of the global
    allocator's client, or its header has been overwritten. *)
Theorem C72_refuted : exists su psmax nmax lax, proxies_ok su psmax nmax /\
  (exists os rs s h1 u1 k h2 u2, both_run su psmax nmax lax false os (both_start su) = ORet rs s /\
     ~ In (RGlobal GPanicked) rs /\ lowns s None h1 u1 /\ lowns s (Some k) h2 u2 /\ ~ disjoint_u u1 u2) /\
  (exists os, both_run su psmax nmax lax false os (both_start su) = OUB).
Proof. exact idle_proxy_refuted. Qed.
Print Assumptions C72_refuted.

(** What is sufficient: that, and dropping the proxies that have been used first.  Missing:
    the contract as it is stated. *)
Theorem C72_partial : forall su psmax nmax lax os, proxies_ok su psmax nmax ->
  exists rs s, both_run su psmax nmax lax true os (both_start su) = ORet rs s /\
    forall who1 h1 u1 who2 h2 u2, lowns s who1 h1 u1 -> lowns s who2 h2 u2 -> (who1, h1) <> (who2, h2) -> disjoint_u u1 u2.
Proof. exact (fun su psmax nmax lax os Hok => both_apart su psmax nmax lax Hok os). Qed.
Print Assumptions C72_partial.
Example C72_case :
  presults (both_run (big megabytes) (2 ^ 40) (2 ^ 20) false true outlives (both_start (big megabytes))) =
  [RGlobal GDone; RProxy PDone; RProxy (PBlock (Some (mkBlock 1048640 16))); RProxy PDone; RGlobal GSkipped;
   RGlobal (GPtr 1048672); RProxy (PBlock (Some (mkBlock 1048640 16)))].
Proof. vm_compute. reflexivity. Qed.
