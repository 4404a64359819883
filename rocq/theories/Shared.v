(** A [SyncBlinkAlloc] used by any number of threads (Conc.v) whose underlying allocator
    has other users at the same time.

    The others work on their own blocks of the underlying allocator, one call of it or
    one write at a time, between any two steps of the threads: the underlying allocator
    is thread-safe, so that its calls can be taken to happen one after the other. *)
From Verif Require Import Base Alloc Arena BlinkAlloc History Setup Conc.

Record ost := mkO {
  o_tab : list (option ublock);      (* the blocks of the others *)
  o_g : gst                          (* the allocator, its threads and their blocks *)
}.

Inductive ochoice :=
| Ours (c : choice)
| Theirs (o : op).

Inductive oevent :=
| OurEv (e : event)
| TheirEv (o : op) (r : option block).

Section Shared.
  Variable su : setup.

  Definition lift_g {B} (m : M gst B) : M ost B :=
    fun s => match m (o_g s) with
             | ORet b g => ORet b (mkO (o_tab s) g)
             | OPanic g => OPanic (mkO (o_tab s) g)
             | OAbort => OAbort
             | OUB => OUB
             end.

  (** A call of the underlying allocator by somebody else, or a write to one of their
      blocks (History.v).  They cannot reset the underlying allocator. *)
  Definition theirs (o : op) : M ost (list oevent) :=
    fun s =>
      let g := o_g s in
      let world w := mkG (g_tab g) (g_thr g) (g_lock g) (fst (g_aw g), w) in
      match o with
      | OpReset _ => ORet [] s
      | _ =>
          match step (su_bmax su) (bot su) (fun _ => ret tt) o (mkCst (o_tab s) (snd (g_aw g))) with
          | ORet r st => ORet [TheirEv o r] (mkO (c_tab st) (world (c_w st)))
          | OPanic st => OPanic (mkO (c_tab st) (world (c_w st)))
          | OAbort => OAbort
          | OUB => OUB
          end
      end.

  Definition ostep (c : ochoice) : M ost (list oevent) :=
    match c with
    | Ours c => es <- lift_g (cstep su c) ;; ret (map OurEv es)
    | Theirs o => theirs o
    end.

  Fixpoint orun (cs : list ochoice) : M ost (list oevent) :=
    match cs with
    | [] => ret []
    | c :: cs' => e <- ostep c ;; es <- orun cs' ;; ret (e ++ es)
    end.

  (** [n] threads, a new allocator, no blocks. *)
  Definition ostart (n : nat) : ost := mkO [] (cstart su n).
End Shared.

(** What happened at the allocator, and what the others did. *)
Fixpoint our_events (es : list oevent) : list event :=
  match es with
  | [] => []
  | OurEv e :: es' => e :: our_events es'
  | TheirEv _ _ :: es' => our_events es'
  end.
Fixpoint their_ops (es : list oevent) : list op :=
  match es with
  | [] => []
  | OurEv _ :: es' => their_ops es'
  | TheirEv o _ :: es' => o :: their_ops es'
  end.
Fixpoint their_results (es : list oevent) : list (option block) :=
  match es with
  | [] => []
  | OurEv _ :: es' => their_results es'
  | TheirEv _ r :: es' => r :: their_results es'
  end.
