(** Tasks and the cache: an example. *)
From Verif Require Import Base BaseFacts Alloc AllocFacts Arena BlinkAlloc History Setup SetupFacts Concrete Wraps WrapsFacts WrapsProps WrapsDemo
  Cache CacheFacts CacheProps Tasks TasksFacts TasksWarm TasksProps.

Definition tfinal (cs : list tchoice) (n : nat) : tst :=
  match trun (demo megabytes) 1000 cs (tstart n) with ORet _ s => s | _ => tstart n end.
Definition tevents (cs : list tchoice) (n : nat) : list tev :=
  match trun (demo megabytes) 1000 cs (tstart n) with ORet es _ => es | _ => [] end.

(** The second task finds the cache empty while the first is in the middle of [push], and makes one
    of its own; then it gets that of the first, with what is allocated in it, and goes on with it while
    the first task puts another one into the cache. *)
Definition handing_over : list tchoice :=
  [TDo 0 (WNew 4096); TDo 0 (WUse 0 (OpAlloc (L 100 8) false)); TDo 0 (WUse 0 (OpWrite 0 0 [Byte 7; Byte 8]));
   TPush 0 0; TGo 0; TPop 1; TGo 1; TGo 1; TGo 0; TGo 1; TDo 1 (WNew 256); TDo 1 (WUse 0 (OpAlloc (L 16 16) true));
   TDo 0 (WNew 1); TGo 0; TGo 0; TPop 1; TGo 1; TGo 0; TGo 1; TGo 1; TGo 1; TGo 1;
   TDo 0 (WNew 512); TDo 0 (WUse 0 (OpAlloc (L 40 8) false)); TPush 0 0; TDo 1 (WUse 1 (OpWrite 0 1 [Byte 9]));
   TGo 0; TDo 1 (WUse 1 (OpAlloc (L 2000 8) false)); TGo 0; TGo 0; TGo 0; TGo 0; TDo 0 (WDirect (OpAlloc (L 8 8) false))].
(** Everything is dropped but what is in the cache. *)
Definition then_dropped : list tchoice := handing_over ++ [TDo 1 (WDrop 0); TDo 1 (WDrop 1)].

Lemma demo_tasks n cs : Z.of_nat n <= 2 ^ 63 ->
  forallb (fun c => match c with TDo _ (WNew min) => (1 <=? min) && (min <=? 2 ^ 20) | _ => true end) cs = true ->
  tasks_ok (demo megabytes) 1000 n cs.
Proof.
  intros Hn H. split; [apply demo_ok|]. split; [unfold ISIZE_MAX; lia|]. split; [exact Hn|].
  apply Forall_forall. intros c Hc. rewrite forallb_forall in H. specialize (H c Hc). destruct c as [t a| | |]; cbn [choice_fine]; auto.
  destruct a; cbn [min_fine]; auto. apply andb_prop in H. destruct H as [H1 H2]. apply Z.leb_le in H1, H2.
  unfold setup_ok, with_min, demo; cbn [su_dbg su_amax su_smax su_bmax su_min su_strat].
  split; [apply checked_honest|]. unfold USIZE_MAX, ISIZE_MAX. repeat split; try lia.
Qed.
Lemma trun_final n cs : match trun (demo megabytes) 1000 cs (tstart n) with ORet _ _ => true | _ => false end = true ->
  trun (demo megabytes) 1000 cs (tstart n) = ORet (tevents cs n) (tfinal cs n).
Proof. intros H. unfold tevents, tfinal. destruct (trun _ _ _ _); try discriminate H. reflexivity. Qed.
