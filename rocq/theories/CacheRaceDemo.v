(** Concrete traces of the cache. *)
From Verif Require Import Base History Conc Cache CacheFacts CacheProps CacheSlots CacheDemo CacheSlotsDemo Race RaceDemo CacheRace.

Definition qtr (k n : nat) (sched : list (qchoice Z)) : list action :=
  match qtrace 100 sched (qstart_slots k n) with ORet tr _ => tr | _ => [] end.

(** Thread 0 pushes 10, then thread 1 pops it. *)
Definition hand_over : list (qchoice Z) :=
  [QStart 0 (CPush 10); QGo 0; QGo 0; QGo 0; QGo 0; QGo 0;
   QStart 1 CPop; QGo 1; QGo 1; QGo 1; QGo 1].
Definition hand_over_end : list (qev Z) * qst Z :=
  match qrun 100 hand_over (qstart 2) with ORet es q => (es, q) | _ => ([], qstart 2) end.
