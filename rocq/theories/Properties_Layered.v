(** C87: BlinkAllocs on top of each other, worked out on paper. *)
From Verif Require Import Base Alloc History Arena BlinkAlloc Tower Setup Concrete AllocProps Paper StrayUse ProxyPaper Layered LayeredFacts LayeredDemo.

(** Any number of BlinkAllocs, each on top of the next, over any honest allocator: the answers,
    every block of the client, every chunk of every level with its cursor, and the calls to the
    underlying allocator are those of the arithmetic in Layered.v. *)
Theorem C87_exact dbg bmax S amax l ls os : 0 <= amax <= USIZE_MAX -> amax <= bmax -> honest amax S -> tower_ok dbg bmax amax (l :: ls) ->
  exists rs st q,
    run (lv_smax l) (tower dbg bmax S (l :: ls)) (tower_reset dbg bmax S (l :: ls)) os (mkCst [] (tower_start (l :: ls))) = ORet rs st /\
    trun S l ls os (tp0 (l :: ls), []) = (rs, q) /\
    c_tab st = snd q /\ tower_shows (l :: ls) (al_mem (tower dbg bmax S (l :: ls)) (c_w st)) (c_w st) (fst q).
Proof. exact (fun H1 H2 H3 Hok => towers_on_paper dbg bmax S amax H1 H2 H3 l ls Hok os). Qed.
Print Assumptions C87_exact.

(** Three levels of default BlinkAllocs in a debug build.  The reset at the top gives nothing
    back to the underlying allocator, and the request after it none to the levels below. *)
Example C87_case : exists st,
  run (2 ^ 40) (tower true ISIZE_MAX (checked (2 ^ 47) megabytes) c21_levels)
    (tower_reset true ISIZE_MAX (checked (2 ^ 47) megabytes) c21_levels) pile (mkCst [] (tower_start c21_levels)) =
    ORet [Some (mkBlock 1048672 100); Some (mkBlock 2097248 1000); Some (mkBlock 2097248 1200); Some (mkBlock 3145856 5000);
          None; Some (mkBlock 3150856 20); None; Some (mkBlock 3145824 20)] st /\
  tower_shows c21_levels (al_mem (tower true ISIZE_MAX (checked (2 ^ 47) megabytes) c21_levels) (c_w st)) (c_w st)
    ([mkP 3145792 8192 3145844],
     ([mkP 3145760 16384 3153984; mkP 2097184 4096 2099264; mkP 1048608 1024 1049152],
      ([mkP 3145728 32768 3162144; mkP 2097152 8192 2101280; mkP 1048576 2048 1049632],
       [EvAlloc (L 32768 8) (Some (mkBlock 3145728 32768)); EvAlloc (L 8192 8) (Some (mkBlock 2097152 8192));
        EvAlloc (L 2048 8) (Some (mkBlock 1048576 2048))]))).
Proof. exact pile_case. Qed.
Print Assumptions C87_case.

(** One operation means one request to the underlying allocator at most, however many levels
    there are.  Unless the BlinkAlloc lies directly on the underlying allocator, a reset gives
    nothing back to it. *)
Theorem C87_one_call S dbg bmax amax l ls os o : 0 <= amax <= USIZE_MAX -> amax <= bmax -> honest amax S -> tower_ok dbg bmax amax (l :: ls) ->
  is_reset o = false \/ ls <> [] -> exists rs st r st',
    run (lv_smax l) (tower dbg bmax S (l :: ls)) (tower_reset dbg bmax S (l :: ls)) os (mkCst [] (tower_start (l :: ls))) = ORet rs st /\
    run (lv_smax l) (tower dbg bmax S (l :: ls)) (tower_reset dbg bmax S (l :: ls)) (os ++ [o]) (mkCst [] (tower_start (l :: ls))) = ORet (rs ++ [r]) st' /\
    (bw_trace (bottom (l :: ls) (c_w st')) = bw_trace (bottom (l :: ls) (c_w st)) \/
     is_reset o = false /\ exists lay b, bw_trace (bottom (l :: ls) (c_w st')) = EvAlloc lay b :: bw_trace (bottom (l :: ls) (c_w st))).
Proof. exact (fun H1 H2 H3 Hok => tower_one_call S dbg bmax amax H1 H2 H3 l ls Hok os o). Qed.
Print Assumptions C87_one_call.

(** With room in the newest chunk at the top the levels below do not notice. *)
Theorem C87_with_room S dbg bmax amax l ls os rs k older x tab lay z :
  0 <= amax <= USIZE_MAX -> amax <= bmax -> honest amax S -> tower_ok dbg bmax amax (l :: ls) ->
  trun S l ls os (tp0 (l :: ls), []) = (rs, (k :: older, x, tab)) ->
  req_okb (lv_smax l) lay = true ->
  let a := least_multiple (p_free k) (l_align lay) in
  p_free k + (l_size lay + (l_align lay - 1)) <= USIZE_MAX -> a + l_size lay <= p_end k ->
  exists st, run (lv_smax l) (tower dbg bmax S (l :: ls)) (tower_reset dbg bmax S (l :: ls)) (os ++ [OpAlloc lay z]) (mkCst [] (tower_start (l :: ls))) =
      ORet (rs ++ [Some (mkBlock a (l_size lay))]) st /\
    c_tab st = tab ++ [Some (mkU a (l_size lay) lay)] /\
    tower_shows (l :: ls) (al_mem (tower dbg bmax S (l :: ls)) (c_w st)) (c_w st) (mkP (p_at k) (p_len k) (a + l_size lay) :: older, x).
Proof. exact (fun H1 H2 H3 Hok => tower_with_room S dbg bmax amax H1 H2 H3 l ls Hok os rs k older x tab lay z). Qed.
Print Assumptions C87_with_room.
