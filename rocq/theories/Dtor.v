(** Destructors that do something.

    In Blink.v a destructor is logged, and may panic.  Here it is a program: it looks at
    values through references it holds, writes through them, and uses the allocator.  It
    cannot use the [Blink]: [reset], [drop_all] and [Drop] have it borrowed mutably.  With
    [emplace_unchecked] (src/blink.rs 1322-1380) a value may hold references to values put
    in before it; "User must guarantee that values won't attempt to access memory allocated
    by the blink allocator later in their [Drop::drop]". *)
From Verif Require Import Base Alloc History HistoryFacts Blink.

(** What a destructor does, and whether it panics.  References are named by their position
    in the table. *)
Inductive dprog :=
| DEnd (panics : bool)
| DLook (h i : nat) (k : option Z -> dprog)                       (* read an element; [None]: not initialised *)
| DSet (h i : nat) (v : Z) (k : dprog)                            (* write an element *)
| DAlloc (keep : bool) (l : Layout) (c : cell) (k : bool -> dprog).
    (* allocate, fill the block with [c], and [keep] it or give it back; is there memory? *)

(** What happened: a destructor ran on the value [v] of type [id] at address [a]; one saw
    [v] in element [i] of reference [h].  [n]: how long the log of the [Blink] was then. *)
Inductive drec := RDrop (id a v : Z) (n : nat) | RSaw (h i : nat) (v : option Z) (n : nat).

(** Where the item of the drop list is that a reference belongs to. *)
Definition item_at (x : handle) : option Z :=
  match h_item x, h_blks x with Some _, u :: _ => Some (u_ptr u) | _, _ => None end.

Section Dtor.
  Context {W : Type} (A : Allocator W).
  (** The destructor of a type, given [self]: its address, and the value there. *)
  Variable dtor : Z -> Z -> Z -> dprog.
  Notation D := (bl W * list drec)%type.

  Definition on_bl {B} (m : M (bl W) B) : M D B :=
    fun d => match m (fst d) with
             | ORet b s => ORet b (s, snd d)
             | OPanic s => OPanic (s, snd d)
             | OAbort => OAbort
             | OUB => OUB
             end.
  Definition note (r : nat -> drec) : M D unit :=
    fun d => ORet tt (fst d, snd d ++ [r (length (bl_log (fst d)))]).

  (** Accessing a value that was dropped, or is being dropped, is undefined.  [dead]: the
      items of the drop list reached so far. *)
  Definition is_dead (dead : list Z) (t : list (option handle)) (h : nat) : bool :=
    match get h t with
    | Some x => match item_at x with Some p => existsb (Z.eqb p) dead | None => false end
    | None => false
    end.
  Definition access (dead : list Z) (h : nat) : M D unit :=
    fun d => if is_dead dead (bl_tab (fst d)) h then OUB else ORet tt d.

  Definition look_elem (h i : nat) : M (bl W) (option Z) :=
    fun s =>
      ORet match get h (bl_tab s) with
           | Some x =>
               if Z.of_nat i <? h_cnt x then
                 if h_size x =? 0 then Some 0 else load (al_mem A (bl_w s)) (h_ptr x + Z.of_nat i * h_size x) (h_size x)
               else None
           | None => None
           end s.

  Fixpoint run_dtor (dead : list Z) (p : dprog) : M D bool :=
    match p with
    | DEnd b => ret b
    | DLook h i k =>
        access dead h ;;;
        v <- on_bl (look_elem h i) ;;
        note (RSaw h i v) ;;;
        run_dtor dead (k v)
    | DSet h i v k =>
        access dead h ;;;
        on_bl (set_elem A h i v) ;;;
        run_dtor dead k
    | DAlloc keep l c k =>
        if req_okb ISIZE_MAX l then
          b <- on_bl (on_alloc (al_allocate A l)) ;;
          match b with
          | None => run_dtor dead (k false)
          | Some b =>
              on_bl (on_alloc (mfill A (b_ptr b) (b_len b) c)) ;;;
              (if keep then ret tt else on_bl (on_alloc (al_deallocate A (b_ptr b) l))) ;;;
              run_dtor dead (k true)
          end
        else run_dtor dead (k false)
    end.

  (** The rest is as in Blink.v (drop_list.rs 24-32, 111-121, 125-129), with destructors that
      run.  The list of the [Blink] is taken out of it first; nobody can look at it, so that
      it is left in place here until the end. *)
  Fixpoint busy_elems (dead : list Z) (g : glue) (a : Z) (n : nat) (panicking : bool) : M D bool :=
    match n with
    | O => ret panicking
    | S n' =>
        v <- on_bl (read_value A (g_tsize g) (a + g_xoff g)) ;;
        note (RDrop (g_id g) (a + g_xoff g) v) ;;;
        bad <- run_dtor dead (dtor (g_id g) (a + g_xoff g) v) ;;
        if bad : bool then
          if panicking then abort else busy_elems dead g (a + g_xsize g) n' true
        else busy_elems dead g (a + g_xsize g) n' panicking
    end.
  Definition busy_drop (dead : list Z) (p : Z) : M D (option Z) :=
    cnt <- on_bl (load_at A p 8 8) ;;
    f <- on_bl (load_at A (p + 8) 8 8) ;;
    n <- on_bl (load_at A (p + 16) 8 8) ;;
    let g := fn_of f in
    bad <- busy_elems dead g (p + item_off (g_xalign g)) (Z.to_nat cnt) false ;;
    if bad : bool then panic else ret (unlink n).
  Fixpoint busy_loop (fuel : nat) (dead : list Z) (p : option Z) : M D unit :=
    match p with
    | None => ret tt
    | Some a =>
        match fuel with
        | O => ub
        | S fuel' => n <- busy_drop (a :: dead) a ;; busy_loop fuel' (a :: dead) n
        end
    end.

  (** The list is empty and no reference is left. *)
  Definition over (d : D) : D :=
    (mkBl (bl_w (fst d)) None (map (fun _ => None) (bl_tab (fst d))) (bl_log (fst d)), snd d).
  Definition busy_drop_all : M D unit :=
    fun d => match busy_loop (length (bl_tab (fst d))) [] (bl_root (fst d)) d with
             | ORet _ d' => ORet tt (over d')
             | OPanic d' => OPanic (over d')
             | OAbort => OAbort
             | OUB => OUB
             end.
  (** blink.rs 291-294 [reset]. *)
  Definition busy_reset (alloc_reset : M W unit) : M D unit :=
    busy_drop_all ;;; on_bl (on_alloc alloc_reset).
End Dtor.

(** ** What is claimed *)

(** May the destructor of the value behind reference [j] access reference [h]?  Yes if [h]
    was put in before it, or is not dropped at all. *)
Definition may (t : list (option handle)) (j h : nat) : Prop :=
  (h < j)%nat \/ forall x, get h t = Some x -> h_item x = None.
Fixpoint only_older (t : list (option handle)) (j : nat) (p : dprog) : Prop :=
  match p with
  | DEnd _ => True
  | DLook h _ k => may t j h /\ forall v, only_older t j (k v)
  | DSet h _ _ k => may t j h /\ only_older t j k
  | DAlloc _ _ _ k => forall b, only_older t j (k b)
  end.
Definition elem_at (x : handle) (k : nat) : Z := h_ptr x + Z.of_nat k * h_size x.
Definition polite (dtor : Z -> Z -> Z -> dprog) (t : list (option handle)) : Prop :=
  forall j x k v, get j t = Some x -> h_item x <> None -> Z.of_nat k < h_cnt x ->
    only_older t j (dtor (h_id x) (elem_at x k) v).
(** The destructor of a value without references to what was put in. *)
Fixpoint blind (p : dprog) : Prop :=
  match p with
  | DEnd _ => True
  | DLook _ _ _ => False
  | DSet _ _ _ _ => False
  | DAlloc _ _ _ k => forall b, blind (k b)
  end.

(** Can a destructor panic? *)
Fixpoint may_panic (p : dprog) : Prop :=
  match p with
  | DEnd b => b = true
  | DLook _ _ k => exists v, may_panic (k v)
  | DSet _ _ _ k => may_panic k
  | DAlloc _ _ _ k => exists b, may_panic (k b)
  end.
Definition panicky (dtor : Z -> Z -> Z -> dprog) : Prop := exists id a v, may_panic (dtor id a v).

(** The values to drop: of each registered reference, the newest first, its elements in
    order.  Type and address. *)
Definition elems_of (x : handle) : list (Z * Z) :=
  match h_item x with
  | Some _ => map (fun k => (h_id x, elem_at x k)) (seq 0 (Z.to_nat (h_cnt x)))
  | None => []
  end.
Definition to_drop (t : list (option handle)) : list (Z * Z) := flat_map elems_of (rev (live t)).
Definition dropped (rs : list drec) : list (Z * Z) :=
  flat_map (fun r => match r with RDrop id a _ _ => [(id, a)] | RSaw _ _ _ _ => [] end) rs.

(** The log only grows by writes of destructors. *)
Definition is_set (e : bev) : Prop := match e with ESet _ _ _ => True | _ => False end.

(** A destructor runs on, and sees, what was put in and written last, by the program or by
    another destructor; it sees nothing where there is no element. *)
Definition true_to (bomb : Z -> Z -> bool) (t : list (option handle)) (lg : list bev) (r : drec) : Prop :=
  match r with
  | RDrop id a v n => exists j x k vs,
      get j t = Some x /\ id = h_id x /\ a = elem_at x k /\
      get j (fst (especs bomb [] (firstn n lg))) = Some (true, id, vs) /\ nth_error vs k = Some (Some v)
  | RSaw h i o n =>
      match get h (fst (especs bomb [] (firstn n lg))) with
      | Some (_, _, vs) => match nth_error vs i with Some (Some v) => o = Some v | Some None => True | None => o = None end
      | None => o = None
      end
  end.
