(** Arbitrary clients of an allocator, and what they are entitled to expect.

    A client performs a history of operations on the blocks it owns, which it
    names by handles.  [step] runs an operation against the allocator; an
    operation that breaks the documented safety rules (dead handle, layout that
    does not fit, invalid layout, write out of bounds) is skipped, so that every
    list of operations denotes a legal client.

    [sstep] is the specification: independent buffers that know nothing about
    addresses, chunks or the underlying allocator.  The only thing it is told
    about the real run is whether an allocation succeeded and with what length. *)
From Verif Require Import Base Alloc.

Inductive op :=
| OpAlloc (l : Layout) (zeroed : bool)
| OpWrite (h : nat) (off : Z) (cs : list cell)
| OpDealloc (h : nat) (l : Layout)
| OpResize (h : nat) (old new : Layout)         (* grow, shrink or resize *)
| OpGrowZeroed (h : nat) (old new : Layout)
| OpReset (keep_last : bool).                   (* reset / reset_final *)

Definition get {T} (h : nat) (t : list (option T)) : option T :=
  match nth_error t h with Some (Some x) => Some x | _ => None end.

Fixpoint set_nth {T} (h : nat) (x : T) (t : list T) : list T :=
  match h, t with
  | _, [] => []
  | O, _ :: t' => x :: t'
  | S h', y :: t' => y :: set_nth h' x t'
  end.

(** ** The real run *)

Record cst (W : Type) := mkCst { c_tab : list (option ublock); c_w : W }.
Arguments mkCst {W} c_tab c_w.
Arguments c_tab {W} c.
Arguments c_w {W} c.

Section Run.
  Context {W : Type}.
  Variable smax : Z.                       (* largest request the client makes *)
  Variable A : Allocator W.
  Variable reset : bool -> M W unit.       (* reset keep_last *)

  (** Run an allocator call, then update the table with its result. *)
  Definition call {B} (m : M W B) (f : B -> list (option ublock) -> list (option ublock))
    : M (cst W) B :=
    fun st => match m (c_w st) with
              | ORet b w' => ORet b (mkCst (f b (c_tab st)) w')
              | OPanic w' => OPanic (mkCst (c_tab st) w')
              | OAbort => OAbort
              | OUB => OUB
              end.

  Definition on_ok (f : ublock -> list (option ublock) -> list (option ublock)) (l : Layout)
    (r : option block) (t : list (option ublock)) : list (option ublock) :=
    match r with
    | Some b => f (mkU (b_ptr b) (b_len b) l) t
    | None => t
    end.

  Definition skip : M (cst W) (option block) := ret None.

  (** [t] is the current table of the client. *)
  Definition step_at (o : op) (t : list (option ublock)) : M (cst W) (option block) :=
    match o with
    | OpAlloc l z =>
        if req_okb smax l then
          call (if z then al_allocate_zeroed A l else al_allocate A l)
               (on_ok (fun u t => t ++ [Some u]) l)
        else skip
    | OpWrite h off cs =>
        match get h t with
        | Some u =>
            if (0 <=? off) && (off + Z.of_nat (length cs) <=? u_len u) then
              fun st => ORet None (mkCst (c_tab st)
                (al_set_mem A (c_w st) (write_cells (al_mem A (c_w st)) (u_ptr u + off) cs)))
            else skip
        | None => skip
        end
    | OpDealloc h l =>
        match get h t with
        | Some u =>
            if fitsb l u then
              (call (al_deallocate A (u_ptr u) l) (fun _ => set_nth h None) ;;; ret None)
            else skip
        | None => skip
        end
    | OpResize h old new =>
        match get h t with
        | Some u =>
            if fitsb old u && req_okb smax new then
              call (if l_size old <=? l_size new then al_grow A (u_ptr u) old new
                    else al_shrink A (u_ptr u) old new)
                   (on_ok (fun u' => set_nth h (Some u')) new)
            else skip
        | None => skip
        end
    | OpGrowZeroed h old new =>
        match get h t with
        | Some u =>
            if fitsb old u && req_okb smax new && (l_size old <=? l_size new) then
              call (al_grow_zeroed A (u_ptr u) old new)
                   (on_ok (fun u' => set_nth h (Some u')) new)
            else skip
        | None => skip
        end
    | OpReset keep =>
        (call (reset keep) (fun _ t => map (fun _ => None) t) ;;; ret None)
    end.

  Definition step (o : op) : M (cst W) (option block) := fun st => step_at o (c_tab st) st.

  Fixpoint run (ops : list op) : M (cst W) (list (option block)) :=
    match ops with
    | [] => ret []
    | o :: ops' => r <- step o ;; rs <- run ops' ;; ret (r :: rs)
    end.
End Run.

(** ** The specification: independent buffers *)

(** A buffer: the layout it was requested with, its length, and the bytes known
    to its owner ([None]: never written, unspecified). *)
Record sbuf := mkS { s_layout : Layout; s_len : Z; s_at : Z -> option cell }.

Definition s_fits (l : Layout) (b : sbuf) : bool :=
  (l_align l =? l_align (s_layout b)) && (l_size (s_layout b) <=? l_size l)
  && (l_size l <=? s_len b).

Definition sstep (o : op) (r : option Z) (t : list (option sbuf)) : list (option sbuf) :=
  match o, r with
  | OpAlloc l z, Some len =>
      t ++ [Some (mkS l len (fun _ => if z then Some (Byte 0) else None))]
  | OpAlloc l z, None => t
  | OpWrite h off cs, _ =>
      match get h t with
      | Some b =>
          if (0 <=? off) && (off + Z.of_nat (length cs) <=? s_len b) then
            set_nth h (Some (mkS (s_layout b) (s_len b)
              (fun i => if (off <=? i) && (i <? off + Z.of_nat (length cs))
                        then Some (nth (Z.to_nat (i - off)) cs Undef) else s_at b i))) t
          else t
      | None => t
      end
  | OpDealloc h l, _ =>
      match get h t with
      | Some b => if s_fits l b then set_nth h None t else t
      | None => t
      end
  | OpResize h old new, Some len =>
      match get h t with
      | Some b => set_nth h (Some (mkS new len
            (fun i => if i <? Z.min (l_size old) (l_size new) then s_at b i else None))) t
      | None => t
      end
  | OpResize h old new, None => t
  | OpGrowZeroed h old new, Some len =>
      match get h t with
      | Some b => set_nth h (Some (mkS new len
            (fun i => if i <? l_size old then s_at b i else Some (Byte 0)))) t
      | None => t
      end
  | OpGrowZeroed h old new, None => t
  | OpReset _, _ => map (fun _ => None) t
  end.

Fixpoint srun (ops : list op) (rs : list (option Z)) (t : list (option sbuf))
  : list (option sbuf) :=
  match ops, rs with
  | o :: ops', r :: rs' => srun ops' rs' (sstep o r t)
  | _, _ => t
  end.

(** The real state behaves as the buffers: the same handles are live, with the
    same layout and length, and every byte known to the owner is in memory. *)
Definition buf_agrees (m : mem) (u : ublock) (b : sbuf) : Prop :=
  u_layout u = s_layout b /\ u_len u = s_len b /\
  forall i c, 0 <= i < s_len b -> s_at b i = Some c -> m (u_ptr u + i) = c.

Definition opt_agrees (m : mem) (u : option ublock) (b : option sbuf) : Prop :=
  match u, b with
  | Some u, Some b => buf_agrees m u b
  | None, None => True
  | _, _ => False
  end.

Definition agrees (m : mem) (t : list (option ublock)) (s : list (option sbuf)) : Prop :=
  Forall2 (opt_agrees m) t s.
