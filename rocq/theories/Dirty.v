(** Memory that contains whatever it likes where nothing has been written.

    Nothing in this file is code of blink-alloc: it is the environment.  Everywhere else the
    bottom allocator marks fresh and freed memory as [Undef], which cannot be read (Alloc.v).  Here
    such memory contains arbitrary cells, like on a real machine, and it does so in what every
    [BlinkAlloc] hands out, too. *)
From Verif Require Import Base Alloc Arena BlinkAlloc History Tower Setup Blink BlinkEnv Proxy Global GlobalProps Param.

(** [n] bytes at [a] become what [d] says. *)
Definition smear (d : Z -> cell) (m : mem) (a n : Z) : mem :=
  fun x => if (a <=? x) && (x <? a + n) then d x else m x.
Definition msmear {W} (A : Allocator W) (dirt : W -> Z -> cell) (a n : Z) : M W unit :=
  fun w => ORet tt (al_set_mem A w (smear (dirt w) (al_mem A w) a n)).

(** The bottom allocator [base] of Alloc.v, except that fresh and freed memory contains what [dirt]
    says, which may depend on all calls made before. *)
Section Bottom.
  Variable smax : Z.
  Variable S : strategy.
  Variable dirt : list uevent -> Z -> cell.

  Definition dirty_allocate (l : Layout) : M bworld (option block) :=
    fun w =>
      if negb (req_okb smax l) then OUB else
      let r := st_alloc S (bw_trace w) l in
      let m := match r with
               | Some b => smear (dirt (bw_trace w)) (bw_mem w) (b_ptr b) (b_len b)
               | None => bw_mem w
               end in
      ORet r (mkB m (EvAlloc l r :: bw_trace w)).
  Definition dirty_deallocate (p : Z) (l : Layout) : M bworld unit :=
    fun w =>
      if negb (req_okb smax l) then OUB else
      match remove_fit p l (outstanding (bw_trace w)) with
      | None => OUB
      | Some _ => ORet tt (mkB (smear (dirt (bw_trace w)) (bw_mem w) p (l_size l)) (EvDealloc p l :: bw_trace w))
      end.
  Definition dirty_resize (p : Z) (old new : Layout) (n : Z) : M bworld (option block) :=
    fun w =>
      if negb (req_okb smax old && req_okb smax new) then OUB else
      match remove_fit p old (outstanding (bw_trace w)) with
      | None => OUB
      | Some _ =>
          let r := Alloc.st_resize S (bw_trace w) p old new in
          let m := match r with
                   | Some b => fun x =>
                       if (b_ptr b <=? x) && (x <? b_ptr b + b_len b)
                       then (if x <? b_ptr b + n then bw_mem w (p + (x - b_ptr b)) else dirt (bw_trace w) x)
                       else smear (dirt (bw_trace w)) (bw_mem w) p (l_size old) x
                   | None => bw_mem w
                   end in
          ORet r (mkB m (EvResize p old new r :: bw_trace w))
      end.
  Definition dirty_grow (p : Z) (old new : Layout) : M bworld (option block) :=
    if l_size old <=? l_size new then dirty_resize p old new (l_size old) else ub.
  Definition dirty_shrink (p : Z) (old new : Layout) : M bworld (option block) :=
    if l_size new <=? l_size old then dirty_resize p old new (l_size new) else ub.
  Definition dirty_base : Allocator bworld :=
    mkAllocator bworld bw_mem (fun w m => mkB m (bw_trace w)) dirty_allocate dirty_deallocate dirty_grow dirty_shrink.
End Bottom.

(** The allocator [A], except that the memory it hands out contains what [dirt] says - all of a new
    block, what [grow] adds, what [shrink] leaves beyond the new size - and that what is given back is
    overwritten before. *)
Section Soil.
  Context {W : Type} (A : Allocator W) (dirt : W -> Z -> cell).

  Definition soil_allocate (l : Layout) : M W (option block) :=
    r <- al_allocate A l ;;
    match r with
    | Some b => msmear A dirt (b_ptr b) (b_len b) ;;; ret (Some b)
    | None => ret None
    end.
  Definition soil_deallocate (p : Z) (l : Layout) : M W unit :=
    msmear A dirt p (l_size l) ;;; al_deallocate A p l.
  Definition soil_resize (resize : Z -> Layout -> Layout -> M W (option block)) (p : Z) (old new : Layout) : M W (option block) :=
    r <- resize p old new ;;
    match r with
    | Some b =>
        let n := Z.min (l_size old) (l_size new) in
        msmear A dirt (b_ptr b + n) (b_len b - n) ;;; ret (Some b)
    | None => ret None
    end.
  Definition soil : Allocator W :=
    mkAllocator W (al_mem A) (al_set_mem A) soil_allocate soil_deallocate
      (soil_resize (al_grow A)) (soil_resize (al_shrink A)).
End Soil.

(** An environment of a [Blink] (BlinkEnv.v) with such an allocator. *)
Definition soiled (E : env) (dirt : e_W E -> Z -> cell) : env :=
  mkEnv (e_W E) (soil (e_A E) dirt) (e_own E) (e_reset E) (e_amax E) (e_smax E) (e_dbg E) (e_bomb E) (e_exact E) (e_shared E).

(** A tower of [BlinkAlloc]s (Tower.v) on dirty memory: [low] is what the bottom allocator leaves
    in memory, [high] what the [BlinkAlloc]s do. *)
Section Grimy.
  Variable dbg : bool.
  Variable bmax : Z.
  Variable S : strategy.
  Variable low : list uevent -> Z -> cell.
  Variable high : forall ls, TW ls -> Z -> cell.

  Fixpoint grimy (ls : list level) : Allocator (TW ls) :=
    match ls with
    | [] => dirty_base bmax S low
    | l :: ls' => soil (blink (grimy ls') dbg) (high (l :: ls'))
    end.
  Definition grimy_reset (ls : list level) (keep : bool) : M (TW ls) unit :=
    match ls with
    | [] => ret tt
    | l :: ls' => if keep then blink_reset (grimy ls') else blink_reset_final (grimy ls')
    end.

  (** A history of a client of the tower; a program with a [Blink] that owns the topmost [BlinkAlloc],
      or has a reference to it. *)
  Definition grimy_run (ls : list level) (ops : list op) := run (top_smax bmax ls) (grimy ls) (grimy_reset ls) ops.
  Definition grimy_blink (shared : bool) (bomb : Z -> Z -> bool) (ls : list level) (os : list bop) :=
    bmain (grimy ls) (if shared then ret tt else grimy_reset ls true) dbg bomb os.
End Grimy.

(** A shared allocator and proxies on it (Proxy.v), and the global allocators (Global.v), on dirty memory. *)
Section Users.
  Variable su : setup.
  Variable low : list uevent -> Z -> cell.
  Variable high : AW (W := bworld) -> Z -> cell.

  Definition dirty_bot : Allocator bworld := dirty_base (su_bmax su) (su_strat su) low.
  Definition dirty_ba : Allocator (AW (W := bworld)) := soil (blink dirty_bot (su_dbg su)) high.
  Definition dirty_reset (keep : bool) : M (AW (W := bworld)) unit :=
    if keep then blink_reset dirty_bot else blink_reset_final dirty_bot.
  Definition dirty_proxies (psmax nmax : Z) (os : list pop) :=
    prun dirty_ba (su_dbg su) dirty_reset (su_smax su) psmax nmax os.
  Definition dirty_strict (sync : bool) (os : list gop) := grun dirty_bot (su_dbg su) sync (su_smax su) Z.eqb os.
  Definition dirty_lenient (sync : bool) (os : list gop) := grun (lenient dirty_bot) (su_dbg su) sync (su_smax su) (fun _ _ => true) os.
End Users.
Definition dirty_proxies_start (su : setup) (m : mem) : pst (W := AW (W := bworld)) := pstart (arena_with_chunk_size (su_min su), mkB m []).
Definition dirty_gstart (su : setup) (m : mem) : gcst (W := bworld) := mkGc [] (g_new (su_min su) (mkB m [])).

(** A tower with nothing allocated, in memory that contains [m]. *)
Fixpoint grimy_start (m : mem) (ls : list level) : TW ls :=
  match ls with
  | [] => mkB m []
  | l :: ls' => (arena_with_chunk_size (lv_min l), grimy_start m ls')
  end.

(** Nothing is in memory but what was written. *)
Definition blank : list uevent -> Z -> cell := fun _ _ => Undef.
Definition blanks : forall ls, TW ls -> Z -> cell := fun _ _ _ => Undef.

(** [m] contains at least what [m0] does. *)
Definition agreeing (m0 m : mem) : Prop := forall x, m0 x <> Undef -> m x = m0 x.
(** The same, for the same arenas and the same calls of the bottom allocator. *)
Definition same_base (w0 w : bworld) : Prop := bw_trace w = bw_trace w0 /\ agreeing (bw_mem w0) (bw_mem w).
Fixpoint same_tower (ls : list level) : TW ls -> TW ls -> Prop :=
  match ls return TW ls -> TW ls -> Prop with
  | [] => same_base
  | l :: ls' => fun w0 w => fst w = fst w0 /\ same_tower ls' (snd w0) (snd w)
  end.
