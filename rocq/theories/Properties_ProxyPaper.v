(** C86: a shared allocator and its thread-local proxies, worked out on paper. *)
From Verif Require Import Base Alloc History Setup BlinkAlloc Arena Proxy ProxyProps ProxyDemo Paper ProxyPaper ProxyPaperFacts ProxyPaperDemo Concrete BlinkDemo.

(** Whatever is done with a shared allocator and any number of proxies: the answers, the panics,
    every block, every chunk of every proxy and of the shared allocator with its cursor, the
    recorded capacity and the calls to the underlying allocator are those of the arithmetic in
    ProxyPaper.v. *)
Theorem C86_exact su psmax nmax os : proxies_ok su psmax nmax ->
  let '(rs, q) := pp_run (su_min su) (su_strat su) (su_dbg su) (su_smax su) psmax nmax os pp0 in
  exists s, proxy_run su psmax nmax os (proxy_start su) = ORet rs s /\ pictured s q.
Proof. exact (fun Hok => proxies_on_paper su psmax nmax Hok os). Qed.
Print Assumptions C86_exact.

Example C86_case : exists rs s, on_big (firstn 11 tour) = (rs, two_proxies) /\
  proxy_run (big megabytes) (2 ^ 40) (2 ^ 20) (firstn 11 tour) (proxy_start (big megabytes)) = ORet rs s /\ pictured s two_proxies.
Proof. exact tour_case. Qed.
Print Assumptions C86_case.

Example C86_case_panic : exists s, proxy_run (big megabytes) (2 ^ 40) (2 ^ 20) empty_first (proxy_start (big megabytes)) = ORet [PDone; PPanicked] s /\
  pictured s (mkShared 0 [Some (mkPP 0 [] [])] []
    ([mkP 1048576 512 1048640], [EvAlloc (L 512 8) (Some (mkBlock 1048576 512))])).
Proof. exact panic_case. Qed.
Print Assumptions C86_case_panic.

(** One operation of a proxy means one request to the underlying allocator at most, and gives
    nothing back. *)
Theorem C86_one_call su psmax nmax os k o : proxies_ok su psmax nmax -> exists rs s r s',
  proxy_run su psmax nmax os (proxy_start su) = ORet rs s /\
  proxy_run su psmax nmax (os ++ [PUse (Some k) o]) (proxy_start su) = ORet (rs ++ [r]) s' /\
  (bw_trace (snd (ps_w s')) = bw_trace (snd (ps_w s)) \/
   exists l b, bw_trace (snd (ps_w s')) = EvAlloc l b :: bw_trace (snd (ps_w s))).
Proof. exact (fun Hok => one_call su psmax nmax Hok os k o). Qed.
Print Assumptions C86_one_call.

(** With room in the newest chunk of the proxy the block comes from there; the shared allocator
    and the other proxies do not notice. *)
Theorem C86_with_room su psmax nmax os k p c older l z : proxies_ok su psmax nmax ->
  let '(rs, q) := pp_run (su_min su) (su_strat su) (su_dbg su) (su_smax su) psmax nmax os pp0 in
  get k (sh_prox q) = Some p -> pp_chunks p = c :: older -> req_okb psmax l = true ->
  let a := least_multiple (p_free c) (l_align l) in
  p_free c + (l_size l + (l_align l - 1)) <= USIZE_MAX -> a + l_size l <= p_end c ->
  exists s, proxy_run su psmax nmax (os ++ [PUse (Some k) (OpAlloc l z)]) (proxy_start su) =
      ORet (rs ++ [PBlock (Some (mkBlock a (l_size l)))]) s /\
    pictured s (mkShared (sh_max q)
      (set_nth k (Some (mkPP (pp_min p) (mkP (p_at c) (p_len c) (a + l_size l) :: older) (pp_tab p ++ [Some (mkU a (l_size l) l)]))) (sh_prox q))
      (sh_tab q) (sh_books q)).
Proof. exact (fun Hok => with_room' su psmax nmax Hok os k p c older l z). Qed.
Print Assumptions C86_with_room.

Example C86_case_room : exists rs s, proxy_run (big megabytes) (2 ^ 40) (2 ^ 20) (firstn 11 tour ++ [PUse (Some 1%nat) (OpAlloc (L 100 64) false)])
    (proxy_start (big megabytes)) = ORet (rs ++ [PBlock (Some (mkBlock 2100416 100))]) s /\
  bw_trace (snd (ps_w s)) = snd (sh_books two_proxies).
Proof. exact room_case. Qed.
Print Assumptions C86_case_room.
