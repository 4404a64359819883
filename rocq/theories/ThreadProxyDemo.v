(** Proxies of one thread, and a [Blink] over one, while two others use the allocator: an example. *)
From Verif Require Import Base BaseFacts Alloc AllocFacts Arena BlinkAlloc History HistoryFacts Setup SetupFacts Concrete
  Conc ConcFacts ConcSteps ConcProps ConcDemo Blink BlinkInv BlinkEnv BlinkProps BlinkDemo Proxy ProxyFacts ProxyProps ProxyDemo
  Threaded ThreadedContract ThreadedDemo ThreadProxy ThreadProxyFacts.

(** A debug build; an arena on top may be asked for whatever Rust can ask for. *)
Definition roomy : setup := mkSetup true (2 ^ 47) (ISIZE_MAX + 2 ^ 48) USIZE_MAX 256 (checked (2 ^ 47) megabytes).
Lemma roomy_ok : setup_ok roomy.
Proof.
  unfold setup_ok, roomy; cbn [su_dbg su_amax su_smax su_bmax su_min su_strat].
  split; [apply checked_honest|]. unfold USIZE_MAX, ISIZE_MAX. repeat split; try lia.
Qed.
Lemma roomy_proxies : proxies_ok roomy (2 ^ 40) (2 ^ 20).
Proof.
  split; [apply roomy_ok|]. unfold roomy; cbn [su_dbg su_amax su_smax su_bmax su_min su_strat]. unfold USIZE_MAX, ISIZE_MAX.
  split; [lia|]. split; [lia|]. right. lia.
Qed.
Lemma roomy_fits : arena_fits roomy ISIZE_MAX 64.
Proof.
  split; [apply roomy_ok|]. unfold roomy; cbn [su_dbg su_amax su_smax su_bmax su_min su_strat]. unfold USIZE_MAX, ISIZE_MAX.
  split; [lia|]. split; [lia|]. right. lia.
Qed.

(** Thread 1 has two proxies and a block of its own.  Proxy 0 gets a second chunk;
    [reset_unchecked] returns the first one, [reset] of proxy 1 does not. *)
Definition errands : list pop :=
  [PLocal; PUse (Some 0%nat) (OpAlloc (L 100 8) false); PUse (Some 0%nat) (OpWrite 0 0 [Byte 1; Byte 2]);
   PUse None (OpAlloc (L 50 16) true); PLocal; PUse (Some 1%nat) (OpAlloc (L 300 8) false);
   PUse (Some 0%nat) (OpAlloc (L 500 8) false); PUse (Some 1%nat) (OpResize 0 (L 300 8) (L 3200 8)); PUse (Some 0%nat) (OpReset true);
   PUse (Some 0%nat) (OpAlloc (L 16 8) false); PReset 1; PUse None (OpReset true); PUse (Some 1%nat) (OpAlloc (L 24 8) false)].
Definition here : gst := cfinal roomy 3 ThreadedDemo.before.
Definition w_tp := tp_start here (cevents roomy 3 ThreadedDemo.before) scramble.
Lemma here_reached : crun roomy ThreadedDemo.before (cstart roomy 3) = ORet (cevents roomy 3 ThreadedDemo.before) here.
Proof. apply cfinal_reached, roomy_ok. Qed.
Lemma w_tp_begins : begins roomy 1 w_tp.
Proof.
  exists 3%nat, ThreadedDemo.before, (cevents roomy 3 ThreadedDemo.before), here, scramble. split; [apply here_reached|].
  split; [vm_compute; reflexivity|reflexivity].
Qed.
Definition s_tp (n : nat) := pfinal w_tp (tp_run roomy 1 (2 ^ 40) (2 ^ 20) (firstn n errands) w_tp).

Notation El k := (lodging roomy 1 ISIZE_MAX 64 calm k).
Definition w_l k : e_W (El k) := (arena_with_chunk_size 64, mkT here [] (cevents roomy 3 ThreadedDemo.before) scramble).
Lemma w_l_ready k : ready (El k) [] (w_l k).
Proof. apply (lodging_ready roomy 1 ISIZE_MAX 64 roomy_fits calm k 3 ThreadedDemo.before); [apply here_reached|vm_compute; reflexivity]. Qed.

Definition meal : list bop := usual ++ [BReset; BlinkDemo.put u64 3].
Definition s_l k := last_state (E := El k) (w_l k) meal.
Definition chores : list op :=
  [OpAlloc (L 100 8) false; OpAlloc (L 400 8) true; OpResize 0 (L 100 8) (L 900 8); OpAlloc (L 3000 8) false; OpDealloc 1 (L 400 8)].
Definition s_over := pfinal (over_start 64 here (cevents roomy 3 ThreadedDemo.before) scramble)
  (over_run roomy 1 ISIZE_MAX chores (over_start 64 here (cevents roomy 3 ThreadedDemo.before) scramble)).
