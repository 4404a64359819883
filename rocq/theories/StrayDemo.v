(** Concrete cases for C78. *)
From Verif Require Import Base BaseFacts Alloc AllocFacts Arena BlinkAlloc History HistoryFacts Setup SetupFacts Concrete Paper PaperDemo
  Tower AllocProps Conc ConcFacts ConcProps ConcDemo Blink BlinkInv BlinkEnv BlinkProps BlinkDemo Proxy ProxyFacts ProxyProps ProxyDemo
  Threaded ThreadedContract ThreadedDemo ThreadProxy ThreadProxyFacts ThreadProxyDemo Stray StrayUse.

(** Memory full of something else. *)
Definition litter : mem := fun x => Byte (x mod 251).

(** [busy] (PaperDemo.v) in two parts: the first chunk is there after the first, the second is
    obtained and the first freed in the second. *)
Definition part1 : list op := firstn 5 PaperDemo.busy.
Definition part2 : list op := skipn 5 PaperDemo.busy.
Definition st_p1 : cst (AW (W := bworld)) := pfinal (start_in litter (demo generous)) (do_run (demo generous) part1 (start_in litter (demo generous))).
Definition st_p2 : cst (AW (W := bworld)) := pfinal st_p1 (do_run (demo generous) part2 st_p1).

(** What the calls in between say about a byte. *)
Definition told (w w' : bworld) (x : Z) : option cell :=
  known (bw_mem w) (outstanding (bw_trace w)) (firstn (length (bw_trace w') - length (bw_trace w)) (bw_trace w')) x.

Lemma told_is w w' x c : no_stray w w' -> told w w' x = Some c -> bw_mem w' x = c.
Proof.
  intros (new & E & H). unfold told. rewrite E, app_length.
  replace (length new + length (bw_trace w) - length (bw_trace w))%nat with (length new + 0)%nat by lia.
  rewrite firstn_app_2. cbn [firstn]. rewrite app_nil_r. apply H.
Qed.

(** [x] is overwritten. *)
Definition spoil (x : Z) (w : bworld) : bworld := mkB (fun y => if y =? x then Byte 255 else bw_mem w y) (bw_trace w).
Lemma spoiled w w' x c : told w w' x = Some c -> c <> Byte 255 -> ~ no_stray w (spoil x w').
Proof.
  intros K N H. apply N. apply (told_is _ _ x c) in H; [|exact K]. cbn in H. rewrite Z.eqb_refl in H. symmetry. exact H.
Qed.

Definition is_ret {W B} (o : outcome W B) : bool := match o with ORet _ _ => true | _ => false end.
Lemma is_ret_unit {W} (d : W) (o : outcome W unit) : is_ret o = true -> o = ORet tt (pfinal d o).
Proof. destruct o as [[] s| | |]; [reflexivity|discriminate..]. Qed.
Lemma is_ret_list {W B} (d : W) (o : outcome W (list B)) : is_ret o = true -> o = ORet (presults o) (pfinal d o).
Proof. destruct o as [rs s| | |]; [reflexivity|discriminate..]. Qed.

(** A [Blink] with its own [BlinkAlloc]: a second chunk, from which the reset frees the first. *)
Definition more : list bop := [BFromIter Put Try boxed (yields 80 (upto 80) done); BReset; BlinkDemo.put dropper 4].
Definition s_bl1 := last_state (E := Eo) w0 usual.
Definition s_bl2 := pfinal s_bl1 (erun Eo more s_bl1).

(** Proxies: the second proxy gets a chunk, the first one is reset. *)
Definition s_px1 := pfinal (proxy_start (big megabytes)) (proxy_run (big megabytes) (2 ^ 40) (2 ^ 20) (firstn 4 tour) (proxy_start (big megabytes))).
Definition s_px2 := pfinal s_px1 (proxy_run (big megabytes) (2 ^ 40) (2 ^ 20) (skipn 4 tour) s_px1).

(** Threads: two more chunks, then a [reset]. *)
Definition turn1 : list choice := moving ++ moved.
Definition turn2 : list choice :=
  Start 1 (OpAlloc (La 2000 8) false) :: Start 2 (OpAlloc (La 700 8) false) :: flat_map (fun _ => [Go 1 false; Go 2 false]) (repeat tt 14) ++ [Exclusive true].
Definition g_th1 := cfinal cs0 3 turn1.
Definition g_th2 := pfinal g_th1 (crun cs0 turn2 g_th1).

(** A [Blink] of a thread, and its proxies. *)
Definition s_tb1 := last_state (E := Et) wt usual.
Definition s_tb2 := pfinal s_tb1 (erun Et more s_tb1).
Definition s_tq1 := pfinal w_tp (tp_run ThreadProxyDemo.roomy 1 (2 ^ 40) (2 ^ 20) (firstn 3 errands) w_tp).
Definition s_tq2 := pfinal s_tq1 (tp_run ThreadProxyDemo.roomy 1 (2 ^ 40) (2 ^ 20) (firstn 8 (skipn 3 errands)) s_tq1).

(** A tower of three. *)
Definition climb1 : list op := [OpAlloc (L 100 16) false].
Definition climb2 : list op := [OpWrite 0 0 [Byte 1]; OpAlloc (L 5000 64) true; OpReset true].
Definition st_tw0 := mkCst [] (tower_start AllocProps.c21_levels).
Definition climb ops st := run (2 ^ 40) (tower true ISIZE_MAX (checked (2 ^ 47) megabytes) AllocProps.c21_levels)
  (tower_reset true ISIZE_MAX (checked (2 ^ 47) megabytes) AllocProps.c21_levels) ops st.
Definition st_tw1 := pfinal st_tw0 (climb climb1 st_tw0).
Definition st_tw2 := pfinal st_tw1 (climb climb2 st_tw1).
