(** Concrete runs of the cache. *)
From Verif Require Import Base Alloc Arena BlinkAlloc History Setup SetupFacts Concrete
  Conc Cache CacheFacts CacheProps.

(** Three values; threads 1 and 2 pop at the same time while thread 0 pushes the third. *)
Definition busy : list (qchoice Z) :=
  solo_ops [CPush 10; CPush 20] ++
  [QStart 1 CPop; QStart 2 CPop; QGo 1; QGo 2; QGo 2; QStart 0 (CPush 30); QGo 0; QGo 1; QGo 0; QGo 1; QGo 0;
   QGo 2; QGo 2; QGo 1; QGo 0; QGo 0].
Definition busy_end : list (qev Z) * qst Z :=
  match qrun 100 busy (qstart 3) with ORet es q => (es, q) | _ => ([], qstart 3) end.

(** While threads 1 and 2 are both about to take a value. *)
Definition busy_mid : list (qev Z) * qst Z :=
  match qrun 100 (firstn 23 busy) (qstart 3) with ORet es q => (es, q) | _ => ([], qstart 3) end.

Definition spent : list (qchoice Z) := solo_ops [CPush 7; CPop; CPop; CPop].
Definition spent_end : qst Z := match qrun 100 spent (qstart 1) with ORet _ q => q | _ => qstart 1 end.
(** Dropping the cache does nothing to what it contains. *)
Lemma drop_vec_nothing {W T} (d : T -> M W unit) (l : list T) : (forall x w, d x w = ORet tt w) -> forall w, drop_vec d l w = ORet tt w.
Proof. intros Hd. induction l as [|x l IH]; intros w; [reflexivity|]. cbn [drop_vec]. unfold bind. rewrite Hd. apply IH. Qed.
Lemma drop_cache_nothing {X W} (q : qst X) (w : W) : drop_cache q w = ORet tt w.
Proof.
  unfold drop_cache, bind. rewrite drop_vec_nothing by reflexivity. apply drop_vec_nothing. reflexivity.
Qed.

Lemma cached_memory_leaks : exists su ops st a w es q w',
  setup_ok su /\ reached su ops st /\ c_w st = (a, w) /\
  qrun ISIZE_MAX (solo_ops [CPush a]) (qstart 1) = ORet es q /\ queue_of q = [a] /\
  drop_cache q w = ORet tt w' /\ outstanding (bw_trace w') <> [] /\
  match blink_drop (bot su) (su_dbg su) (a, w) with
  | ORet _ aw => outstanding (bw_trace (snd aw)) = []
  | _ => False
  end.
Proof.
  set (o := [OpAlloc (mkLayout 8 8) false]).
  exists (demo megabytes), o, (final (demo megabytes) o), (fst (c_w (final (demo megabytes) o))),
    (snd (c_w (final (demo megabytes) o))).
  eexists _, _, _. split; [apply demo_ok|]. split; [apply final_reached, demo_ok|].
  split; [apply surjective_pairing|].
  split; [vm_compute; reflexivity|]. split; [vm_compute; reflexivity|].
  split; [reflexivity|]. split; [vm_compute; discriminate|].
  vm_compute. reflexivity.
Qed.
