(** * C22, C23, C51, C52, C53, C66, C83: a shared [SyncBlinkAlloc] and its thread-local proxies

    [proxy_run su psmax nmax os] - a history of operations on the shared allocator and on
    any number of proxies, each operation as a whole.  The clients use only blocks they own,
    a proxy only while it is alive, and [reset] of the shared allocator only when no proxy is
    (it takes [&mut self]).  Panics are caught. *)
From Verif Require Import Base BaseFacts Alloc AllocFacts Arena BlinkAlloc History HistoryFacts Setup SetupFacts Concrete
  BlinkDemo Proxy ProxyFacts ProxyProps ProxyDemo ProxyWarm ProxyWarmDemo ProxyVec ProxyVecDemo.

(** ** C22 Shared allocator and local proxies never hand out overlapping memory *)

(** Every history runs without undefined behaviour; the blocks of all clients behave as
    independent buffers, and never overlap. *)
Theorem C22_separate : forall su psmax nmax os, proxies_ok su psmax nmax ->
  exists rs s, proxy_run su psmax nmax os (proxy_start su) = ORet rs s /\ separate su os rs s.
Proof. exact (fun su psmax nmax os Hok => proxies_apart su psmax nmax Hok os). Qed.
Print Assumptions C22_separate.
Example C22_separate_case : proxies_ok (big megabytes) (2 ^ 40) (2 ^ 20) /\
  presults (proxy_run (big megabytes) (2 ^ 40) (2 ^ 20) tour (proxy_start (big megabytes))) =
  [PDone; PBlock (Some (mkBlock 1048640 100)); PBlock None; PBlock (Some (mkBlock 1048864 50)); PDone;
   PBlock (Some (mkBlock 2097216 3000)); PBlock (Some (mkBlock 2101312 500)); PBlock (Some (mkBlock 2097216 3200));
   PDone; PBlock (Some (mkBlock 2101312 16)); PSkipped; PDone; PDone; PBlock (Some (mkBlock 3145792 1)); PDone;
   PSkipped; PDone; PBlock None].
Proof. split; [exact (big_proxies _)|]. vm_compute. reflexivity. Qed.
Example C22_release_case : proxies_ok (released generous) USIZE_MAX USIZE_MAX.
Proof. exact (released_proxies _). Qed.

(** ** C23 Proxy warm-up size *)

(** The recorded size never decreases. *)
Theorem C23_recorded : forall su psmax nmax os1 rs1 s1 os2 rs2 s2, proxies_ok su psmax nmax ->
  proxy_run su psmax nmax os1 (proxy_start su) = ORet rs1 s1 -> proxy_run su psmax nmax os2 s1 = ORet rs2 s2 ->
  ps_max s1 <= ps_max s2.
Proof. exact (fun su psmax nmax os1 rs1 s1 os2 rs2 s2 Hok => recorded_grows su psmax nmax Hok os1 rs1 s1 os2 rs2 s2). Qed.
Print Assumptions C23_recorded.

(** Proxy [k], with a last chunk of capacity [n], is reset or dropped; a proxy is made later:
    its chunks have a capacity of at least [n]. *)
Theorem C23_capacity : forall su psmax nmax os1 rs1 s1 k n fin os2 rs2 s2 os3 rs3 s3 c, proxies_ok su psmax nmax ->
  proxy_run su psmax nmax os1 (proxy_start su) = ORet rs1 s1 -> last_capacity (ba su) s1 k = Some n ->
  fin = PDrop k \/ fin = PReset k -> proxy_run su psmax nmax (fin :: os2) s1 = ORet rs2 s2 ->
  proxy_run su psmax nmax (PLocal :: os3) s2 = ORet rs3 s3 ->
  last_capacity (ba su) s3 (length (ps_prox s2)) = Some c -> n <= c.
Proof. exact (fun su psmax nmax os1 rs1 s1 k n fin os2 rs2 s2 os3 rs3 s3 c Hok => warm_up su psmax nmax Hok os1 rs1 s1 k n fin os2 rs2 s2 os3 rs3 s3 c). Qed.
Print Assumptions C23_capacity.

(** The first allocation of such a proxy never asks the shared allocator for less than that
    capacity and the 32 bytes of the header: it does not notice a shared allocator for which
    such a request is undefined behaviour. *)
Theorem C23_request : forall su psmax nmax os1 rs1 s1 k n fin os2 rs2 s2 os3 rs3 s3 p l z, proxies_ok su psmax nmax ->
  proxy_run su psmax nmax os1 (proxy_start su) = ORet rs1 s1 -> last_capacity (ba su) s1 k = Some n ->
  fin = PDrop k \/ fin = PReset k -> proxy_run su psmax nmax (fin :: os2) s1 = ORet rs2 s2 ->
  proxy_run su psmax nmax (PLocal :: os3) s2 = ORet rs3 s3 ->
  get (length (ps_prox s2)) (ps_prox s3) = Some p -> ar_root (px_arena p) = None ->
  let first A := on_proxy (length (ps_prox s2)) (step psmax (blink A (su_dbg su)) (fun _ => blink_reset A) (OpAlloc l z)) s3 in
  first (wary (32 + n) (ba su)) = first (ba su).
Proof. exact (fun su psmax nmax os1 rs1 s1 k n fin os2 rs2 s2 os3 rs3 s3 p l z Hok => warm_request su psmax nmax Hok os1 rs1 s1 k n fin os2 rs2 s2 os3 rs3 s3 p l z). Qed.
Print Assumptions C23_request.
Example C23_case : (exists rs1 rs2 rs3,
    proxy_run (big megabytes) (2 ^ 40) (2 ^ 20) before (proxy_start (big megabytes)) = ORet rs1 s_before /\
    proxy_run (big megabytes) (2 ^ 40) (2 ^ 20) [PDrop 1] s_before = ORet rs2 s_between /\
    proxy_run (big megabytes) (2 ^ 40) (2 ^ 20) (PLocal :: after) s_between = ORet rs3 s_after) /\
  last_capacity (ba (big megabytes)) s_before 1 = Some 4064 /\ last_capacity (ba (big megabytes)) s_before 0 = Some 992 /\
  length (ps_prox s_between) = 2%nat /\ last_capacity (ba (big megabytes)) s_after 2 = Some 4064.
Proof. split; [exact story|]. split; [vm_compute; reflexivity|]. split; [vm_compute; reflexivity|]. split; vm_compute; reflexivity. Qed.

(** ** C51 No allocation panics on a proxy *)

(** In a debug build the first allocation on a proxy of a fresh shared allocator panics if it
    is zero-sized. *)
Theorem C51_refuted : exists su psmax nmax os rs s,
  proxies_ok su psmax nmax /\ su_dbg su = true /\ proxy_run su psmax nmax os (proxy_start su) = ORet rs s /\ In PPanicked rs /\
  forall o, In o os -> o = PLocal \/ exists l, o = PUse (Some 0%nat) (OpAlloc l false) /\ layout_okb l = true.
Proof. exact fresh_proxy_refuted. Qed.
Print Assumptions C51_refuted.

(** No other operation does, and none in a release build. *)
Theorem C51_partial : forall su psmax nmax os rs s, proxies_ok su psmax nmax ->
  proxy_run su psmax nmax os (proxy_start su) = ORet rs s -> In PPanicked rs ->
  su_dbg su = true /\ exists o, In o os /\ exists k l z, o = PUse (Some k) (OpAlloc l z) /\ l_size l = 0 /\ l_align l <= 8.
Proof. exact (fun su psmax nmax os rs s Hok => proxies_panic su psmax nmax Hok os rs s). Qed.
Print Assumptions C51_partial.
Example C51_case : proxies_ok (big megabytes) (2 ^ 40) (2 ^ 20) /\
  presults (proxy_run (big megabytes) (2 ^ 40) (2 ^ 20) empty_first (proxy_start (big megabytes))) = [PDone; PPanicked].
Proof. split; [exact (big_proxies _)|]. vm_compute. reflexivity. Qed.

(** ** C52 The memory of proxies is reclaimed by the shared allocator *)
Theorem C52_reclaimed : forall su psmax nmax os rs s, proxies_ok su psmax nmax ->
  proxy_run su psmax nmax os (proxy_start su) = ORet rs s -> forallb is_none (ps_prox s) = true ->
  exists s', proxy_run su psmax nmax [PUse None (OpReset false)] s = ORet [PBlock None] s' /\ outstanding (bw_trace (snd (ps_w s'))) = [].
Proof. exact (fun su psmax nmax os rs s Hok => proxies_reclaimed su psmax nmax Hok os rs s). Qed.
Print Assumptions C52_reclaimed.
(** Three proxies were dropped, their chunks lying in three chunks of the shared allocator,
    which the reset returns. *)
Example C52_case : let s := pfinal (proxy_start (big megabytes)) (proxy_run (big megabytes) (2 ^ 40) (2 ^ 20) (firstn 17 tour) (proxy_start (big megabytes))) in
  forallb is_none (ps_prox s) = true /\ length (outstanding (bw_trace (snd (ps_w s)))) = 3%nat.
Proof. split; vm_compute; reflexivity. Qed.

(** ** C53 One call of [update_max_local_alloc] disables every later proxy

    The method is public and safe, and the recorded size is never lowered: after a call with
    more than fits into the address space no later proxy ever has a block. *)
Theorem C53_poisoned : forall su psmax nmax os1 rs1 s1 n os2 rs2 s2 os3 rs3 s3 h u, proxies_ok su psmax nmax ->
  proxy_run su psmax nmax os1 (proxy_start su) = ORet rs1 s1 -> 0 <= n <= nmax -> su_amax su < 32 + n ->
  proxy_run su psmax nmax (PUpdate n :: os2) s1 = ORet rs2 s2 -> proxy_run su psmax nmax (PLocal :: os3) s2 = ORet rs3 s3 ->
  ~ owns s3 (Some (length (ps_prox s2))) h u.
Proof. exact (fun su psmax nmax os1 rs1 s1 n os2 rs2 s2 os3 rs3 s3 h u Hok => poisoned su psmax nmax Hok os1 rs1 s1 n os2 rs2 s2 os3 rs3 s3 h u). Qed.
Print Assumptions C53_poisoned.
Example C53_case : proxies_ok (released megabytes) USIZE_MAX USIZE_MAX /\ su_amax (released megabytes) < 32 + 2 ^ 48 /\
  presults (proxy_run (released megabytes) USIZE_MAX USIZE_MAX
    [PLocal; PUse (Some 0%nat) (OpAlloc (L 0 8) false); PUpdate (2 ^ 48); PLocal; PUse (Some 1%nat) (OpAlloc (L 1 8) false);
     PUse (Some 0%nat) (OpAlloc (L 1 8) false)] (proxy_start (released megabytes))) =
  [PDone; PBlock (Some (mkBlock 1048640 0)); PDone; PDone; PBlock None; PBlock (Some (mkBlock 1048672 1))].
Proof. split; [exact (released_proxies _)|]. split; [reflexivity|]. vm_compute. reflexivity. Qed.

(** ** C66 Warmed up, a proxy serves its work from one chunk

    [since_reset k os]: the bytes, padding included, that the operations [os] ask proxy [k]
    for since its last reset; [several]: it holds more than one chunk. *)

(** When the size recorded at the making of a proxy covers its work, it never holds a second
    chunk. *)
Theorem C66_one_chunk : forall su psmax nmax os1 rs1 s1 os2 rs2 s2, proxies_ok su psmax nmax ->
  proxy_run su psmax nmax os1 (proxy_start su) = ORet rs1 s1 -> proxy_run su psmax nmax (PLocal :: os2) s1 = ORet rs2 s2 ->
  since_reset (length (ps_prox s1)) os2 <= ps_max s1 -> ~ several (ba su) s2 (length (ps_prox s1)).
Proof. exact (fun su psmax nmax os1 rs1 s1 os2 rs2 s2 Hok => enough su psmax nmax Hok os1 rs1 s1 os2 rs2 s2). Qed.
Print Assumptions C66_one_chunk.

(** When it does not, the end of the proxy raises the recorded size by at least 64 bytes over
    what it was at the making. *)
Theorem C66_raised : forall su psmax nmax os1 rs1 s1 os2 rs2 s2 fin os3 rs3 s3, proxies_ok su psmax nmax ->
  proxy_run su psmax nmax os1 (proxy_start su) = ORet rs1 s1 -> proxy_run su psmax nmax (PLocal :: os2) s1 = ORet rs2 s2 ->
  several (ba su) s2 (length (ps_prox s1)) -> fin = PDrop (length (ps_prox s1)) \/ fin = PReset (length (ps_prox s1)) ->
  proxy_run su psmax nmax (fin :: os3) s2 = ORet rs3 s3 -> ps_max s1 + 64 <= ps_max s3.
Proof. exact (fun su psmax nmax os1 rs1 s1 os2 rs2 s2 fin os3 rs3 s3 Hok => raised su psmax nmax Hok os1 rs1 s1 os2 rs2 s2 fin os3 rs3 s3). Qed.
Print Assumptions C66_raised.

(** So of any rounds of work that need [N] bytes each on a proxy of their own, whatever else
    happens in between, fewer than [N / 64 + 1] ever see a second chunk. *)
Theorem C66_warmed_up : forall su psmax nmax N rounds, proxies_ok su psmax nmax -> 0 <= N ->
  outgrown su psmax nmax N rounds (proxy_start su) -> 64 * Z.of_nat (length rounds) < N + 64.
Proof. exact (fun su psmax nmax N rounds Hok => outgrown_few su psmax nmax Hok N rounds). Qed.
Print Assumptions C66_warmed_up.

(** The same work three times: a proxy of its own each time, with several chunks the first
    two times, and one the third time. *)
Example C66_case : proxies_ok wsu (2 ^ 40) (2 ^ 20) /\ outgrown wsu (2 ^ 40) (2 ^ 20) 6042 two_rounds (proxy_start wsu) /\
  since_reset 2 (chores 2) = 6042 /\ ps_max w2' = 8160 /\ ~ several (ba wsu) w3 2.
Proof.
  split; [exact (big_proxies _)|]. split; [exact two_outgrown|]. split; [vm_compute; reflexivity|]. split; [vm_compute; reflexivity|]. exact third_round.
Qed.
(** The documented example: in the second iteration the vector grows where it is. *)
Example C66_documented : severalb (ba wsu) v1 0 = true /\ severalb (ba wsu) v2 1 = false /\
  presults (proxy_run wsu (2 ^ 40) (2 ^ 20) (PLocal :: doubling 1) v1') =
  PDone :: map (fun n => PBlock (Some (mkBlock 5242944 (2 ^ n)))) [4; 5; 6; 7; 8; 9; 10; 11].
Proof. split; [vm_compute; reflexivity|]. split; vm_compute; reflexivity. Qed.

(** ** C83 The vector of the documentation grows in place the second time

    "Proxy will allocate enough memory to grow vec without reallocating on 2nd iteration and
    later."  [vector_ops k a N None os] (ProxyVec.v): in [os] proxy [k] is used for one
    vector only - one allocation of alignment [a], growing to sizes up to [N], reads and
    writes - while anybody else does anything.  [several A s k]: proxy [k] holds more than
    one chunk.  [stays_at k p os rs]: every request of the vector was answered with address
    [p] and the size asked for.  [turned_down k os rs]: its first request failed. *)

(** On a proxy made when the shared allocator has recorded at least [N] bytes the vector
    never moves, and the proxy takes only one chunk. *)
Theorem C83_in_place : forall su psmax nmax a N os1 rs1 s1 os2 r rs2 s2, proxies_ok su psmax nmax ->
  req_okb psmax (mkLayout N a) = true ->
  proxy_run su psmax nmax os1 (proxy_start su) = ORet rs1 s1 -> proxy_run su psmax nmax (PLocal :: os2) s1 = ORet (r :: rs2) s2 ->
  vector_ops (length (ps_prox s1)) a N None os2 -> N <= ps_max s1 ->
  ~ several (ba su) s2 (length (ps_prox s1)) /\
  ((exists p, stays_at (length (ps_prox s1)) p os2 rs2) \/ turned_down (length (ps_prox s1)) os2 rs2).
Proof. exact (fun su psmax nmax a N os1 rs1 s1 os2 r rs2 s2 Hok => @vec_in_place su psmax nmax Hok a N os1 rs1 s1 os2 r rs2 s2). Qed.
Print Assumptions C83_in_place.

(** When the proxy of a vector is dropped or reset, at least the vector's size is recorded. *)
Theorem C83_recorded : forall su psmax nmax a N os1 rs1 s1 os2 r rs2 s2 u fin os3 rs3 s3, proxies_ok su psmax nmax ->
  req_okb psmax (mkLayout N a) = true ->
  proxy_run su psmax nmax os1 (proxy_start su) = ORet rs1 s1 -> proxy_run su psmax nmax (PLocal :: os2) s1 = ORet (r :: rs2) s2 ->
  vector_ops (length (ps_prox s1)) a N None os2 -> owns s2 (Some (length (ps_prox s1))) 0 u ->
  fin = PDrop (length (ps_prox s1)) \/ fin = PReset (length (ps_prox s1)) -> proxy_run su psmax nmax (fin :: os3) s2 = ORet rs3 s3 ->
  l_size (u_layout u) <= ps_max s3.
Proof. exact (fun su psmax nmax a N os1 rs1 s1 os2 r rs2 s2 u fin os3 rs3 s3 Hok => @vec_recorded su psmax nmax Hok a N os1 rs1 s1 os2 r rs2 s2 u fin os3 rs3 s3). Qed.
Print Assumptions C83_recorded.

(** So a second vector, of whatever alignment, on any later proxy never moves as long as it
    does not outgrow the first. *)
Theorem C83_second_time : forall su psmax nmax a N a' N' os1 rs1 s1 os2 r rs2 s2 u fin os3 rs3 s3 os4 r' rs4 s4, proxies_ok su psmax nmax ->
  req_okb psmax (mkLayout N a) = true -> req_okb psmax (mkLayout N' a') = true ->
  proxy_run su psmax nmax os1 (proxy_start su) = ORet rs1 s1 -> proxy_run su psmax nmax (PLocal :: os2) s1 = ORet (r :: rs2) s2 ->
  vector_ops (length (ps_prox s1)) a N None os2 -> owns s2 (Some (length (ps_prox s1))) 0 u ->
  fin = PDrop (length (ps_prox s1)) \/ fin = PReset (length (ps_prox s1)) -> proxy_run su psmax nmax (fin :: os3) s2 = ORet rs3 s3 ->
  proxy_run su psmax nmax (PLocal :: os4) s3 = ORet (r' :: rs4) s4 -> vector_ops (length (ps_prox s3)) a' N' None os4 -> N' <= l_size (u_layout u) ->
  ~ several (ba su) s4 (length (ps_prox s3)) /\
  ((exists p, stays_at (length (ps_prox s3)) p os4 rs4) \/ turned_down (length (ps_prox s3)) os4 rs4).
Proof.
  exact (fun su psmax nmax a N a' N' os1 rs1 s1 os2 r rs2 s2 u fin os3 rs3 s3 os4 r' rs4 s4 Hok =>
    @second_time su psmax nmax Hok a N a' N' os1 rs1 s1 os2 r rs2 s2 u fin os3 rs3 s3 os4 r' rs4 s4).
Qed.
Print Assumptions C83_second_time.

(** A vector of 2048 bytes that moved six times while it grew; then one with elements of
    alignment 64, while others use the shared allocator and a third proxy. *)
Example C83_case : proxies_ok wsu (2 ^ 40) (2 ^ 20) /\ vector_ops 0 4 2048 None (doubling 0) /\
  (exists u, owns v1 (Some 0%nat) 0 u /\ l_size (u_layout u) = 2048) /\ severalb (ba wsu) v1 0 = true /\
  ps_max x1' = 4064 /\ vector_ops 1 64 2048 None second /\ severalb (ba wsu) x2 1 = false /\
  presults (proxy_run wsu (2 ^ 40) (2 ^ 20) (PLocal :: second) x1') =
  [PDone; PBlock (Some (mkBlock 6291520 64)); PBlock (Some (mkBlock 6299680 3000)); PDone;
   PBlock (Some (mkBlock 6291520 512)); PBlock (Some (mkBlock 6302712 100)); PBlock None;
   PBlock (Some (mkBlock 7340096 5000)); PDone; PBlock (Some (mkBlock 6291520 2048))].
Proof.
  split; [exact (big_proxies _)|]. split; [exact first_vector|]. split; [exact first_grown|]. split; [vm_compute; reflexivity|].
  split; [vm_compute; reflexivity|]. split; [exact second_vector|]. split; vm_compute; reflexivity.
Qed.
