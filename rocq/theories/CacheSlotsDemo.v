(** Concrete runs of a cache with free slots. *)
From Verif Require Import Base History Conc Cache CacheFacts CacheProps CacheSlots.

(** Threads 0 and 1 push at the same time, into two slots; thread 2 pops. *)
Definition slots_busy : list (qchoice Z) :=
  [QStart 0 (CPush 10); QStart 1 (CPush 20); QGo 0; QGo 1; QGo 0; QGo 1;
   QStart 2 CPop; QGo 2; QGo 1; QGo 2; QGo 0; QGo 2; QGo 0; QGo 1; QGo 2; QGo 2; QGo 2].
Definition slots_mid : list (qev Z) * qst Z :=
  match qrun 100 (firstn 6 slots_busy) (qstart_slots 2 3) with ORet es q => (es, q) | _ => ([], qstart_slots 2 3) end.
Definition slots_end : list (qev Z) * qst Z :=
  match qrun 100 slots_busy (qstart_slots 2 3) with ORet es q => (es, q) | _ => ([], qstart_slots 2 3) end.

(** Two values are pushed by one thread; it pops the second first. *)
Lemma slots_not_fifo : exists es (q : qst Z),
  qrun 100 (solo_ops [CPush 10; CPush 20; CPop]) (qstart_slots 2 1) = ORet es q /\
  all_returns es = [None; None; Some 20] /\ inside q = [10] /\
  all_returns es <> queue_results [CPush 10; CPush 20; CPop] [].
Proof.
  destruct (qrun 100 (solo_ops [CPush 10; CPush 20; CPop]) (qstart_slots 2 1)) as [es q| | |] eqn:E;
    vm_compute in E; try discriminate E.
  inversion E; subst. eexists _, _. split; [reflexivity|]. vm_compute. split; [reflexivity|]. split; [reflexivity|].
  discriminate.
Qed.
