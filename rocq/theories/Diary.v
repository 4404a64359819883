(** A [Blink] on a [BlinkAlloc], on paper (C85).

    Nothing in this file is code of blink-alloc.  [jotted] passes every call of the [Blink] on
    to its allocator and keeps a diary: the calls, their answers, and the resets.  [replays]
    works the diary out with the arithmetic of Paper.v. *)
From Verif Require Import Base Alloc History Arena BlinkAlloc Setup SetupFacts Blink BlinkInv BlinkEnv Asks Paper.

(** What the [Blink] did to its allocator. *)
Inductive entry_of_diary := Asked (ev : uevent) | Cleared.
Notation dev := entry_of_diary.

Section Jotted.
  Context {W : Type}.
  Variable A : Allocator W.

  (** A call and the entry about it, the most recent first. *)
  Definition jot {B} (m : M W B) (ev : B -> dev) : M (W * list dev) B :=
    fun s => match m (fst s) with
             | ORet b w => ORet b (w, ev b :: snd s)
             | OPanic w => OPanic (w, snd s)
             | OAbort => OAbort
             | OUB => OUB
             end.
  Definition jotted : Allocator (W * list dev) :=
    mkAllocator _
      (fun s => al_mem A (fst s))
      (fun s m => (al_set_mem A (fst s) m, snd s))
      (fun l => jot (al_allocate A l) (fun r => Asked (EvAlloc l r)))
      (fun p l => jot (al_deallocate A p l) (fun _ => Asked (EvDealloc p l)))
      (fun p old new => jot (al_grow A p old new) (fun r => Asked (EvResize p old new r)))
      (fun p old new => jot (al_shrink A p old new) (fun r => Asked (EvResize p old new r))).
  (** Resetting a shared allocator does nothing (api.rs 46-52); no entry. *)
  Definition unjotted (m : M W unit) : M (W * list dev) unit :=
    fun s => match m (fst s) with
             | ORet b w => ORet b (w, snd s)
             | OPanic w => OPanic (w, snd s)
             | OAbort => OAbort
             | OUB => OUB
             end.
End Jotted.

(** A [Blink] that owns its [BlinkAlloc], or ([shared]) has a reference to one: [owned] and
    [borrowed] of BlinkEnv.v. *)
Definition backed (su : setup) (bomb : Z -> Z -> bool) (shared : bool) : env :=
  mkEnv _ (ba su) (sown su) (if shared then ret tt else do_reset su true) (su_amax su) (su_smax su) (su_dbg su) bomb true shared.

(** The same with a diary. *)
Definition diary (E : env) : env :=
  mkEnv (e_W E * list dev) (jotted (e_A E)) (fun s us => e_own E (fst s) us)
    (if e_shared E then unjotted (e_reset E) else jot (e_reset E) (fun _ => Cleared))
    (e_amax E) (e_smax E) (e_dbg E) (e_bomb E) (e_exact E) (e_shared E).
Definition entries {W} (s : bl (W * list dev)) : list dev := snd (bl_w s).
(** The state without the diary. *)
Definition undiaried {W} (s : bl (W * list dev)) : bl W := mkBl (fst (bl_w s)) (bl_root s) (bl_tab s) (bl_log s).

(** ** On paper *)

Section Replay.
  Variable min : Z.
  Variable S : strategy.

  (** Chunks, and the calls made to the underlying allocator. *)
  Definition account : Type := (list pchunk * list uevent)%type.

  (** An entry is what Paper.v prescribes: the answer, and what becomes of the chunks. *)
  Definition prescribed (d : dev) (c c' : account) : Prop :=
    match d with
    | Asked (EvAlloc l r) =>
        exists a, take min S (fst c) l (snd c) = (a, fst c', snd c') /\ r = option_map (fun a => mkBlock a (l_size l)) a
    | Asked (EvResize p old new r) => moves min S (fst c) p old new (snd c) = (r, fst c', snd c')
    | Asked (EvDealloc _ _) => c' = c
    | Cleared =>
        c' = match fst c with
             | [] => c
             | k :: older => ([mkP (p_at k) (p_len k) (p_first k)], give_back older (snd c))
             end
    end.
  Fixpoint replays (ds : list dev) (c0 c : account) : Prop :=
    match ds with
    | [] => c = c0
    | d :: ds' => exists c1, replays ds' c0 c1 /\ prescribed d c1 c
    end.
End Replay.

(** ** Room *)

(** [n] more bytes, aligned to [a], fit into the chunk. *)
Definition room (k : pchunk) (n a : Z) : Prop := p_free k + (n + (a - 1)) <= USIZE_MAX /\ least_multiple (p_free k) a + n <= p_end k.
(** What a call was answered: [n] bytes at [p] for [n] asked. *)
Definition answered_at (p : Z) (ev : uevent) : Prop :=
  match ev with
  | EvAlloc l r | EvResize _ _ l r => r = Some (mkBlock p (l_size l))
  | EvDealloc q _ => q = p
  end.

(** Operations that make one request, and its layout. *)
Definition single (o : bop) : option Layout :=
  match o with
  | BEmplace k _ T r e BNil out =>
      if ty_okb T && res_okb T r && res_okb T e && match out with COk v => value_okb T v | _ => true end then Some (placed_lay k T e) else None
  | BCopy _ T vs => Some (mkLayout (Z.of_nat (length vs) * t_size T) (t_align T))
  | BUninit _ T => Some (mkLayout (t_size T) (t_align T))
  | _ => None
  end.
