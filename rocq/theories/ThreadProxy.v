(** What a thread builds on a [SyncBlinkAlloc] that other threads use at the same time (C76).

    The thread has any number of proxies ([SyncBlinkAlloc::local], sync.rs 221-226), and uses
    the shared allocator directly as well.  The proxies are those of Proxy.v, with all their
    operations, [reset_unchecked] (sync.rs 561-567) included; the shared allocator is that of
    Threaded.v: each call to it consists of steps, before each of which other threads make steps
    of theirs, at whatever place of whatever call they are.  Other threads may have proxies, too;
    to this one these are users of the shared allocator like any other.

    A [BlinkAlloc<&SyncBlinkAlloc>], or one of the proxies, may in turn be under a [Blink].

    Simplifications: as in Threaded.v.  [max_local_alloc] is raised by other threads at arbitrary
    moments ([PUpdate]); loads of it return the newest value (old ones: PConc.v). *)
From Verif Require Import Base Alloc Arena BlinkAlloc History Setup Conc Proxy Threaded.

(** Nobody can reset the shared allocator: the proxies and the other threads borrow it
    (sync.rs 298, 308: [&mut self]). *)
Definition no_shared_reset (o : pop) : bool := match o with PUse None (OpReset _) => false | _ => true end.

Section ThreadProxy.
  Variable su : setup.
  Variable t : nat.                  (* the thread *)
  Variable psmax nmax : Z.           (* see Proxy.v *)

  Definition tp_run (os : list pop) : M (pst (W := tst)) (list pres) :=
    prun (threaded su t) (su_dbg su) (fun _ => ub) (su_smax su) psmax nmax os.
  (** The thread begins when the others have brought the shared allocator to the state [g];
      [es] is what happened until then, [todo] what is going to happen. *)
  Definition tp_start (g : gst) (es : list event) (todo : list turn) : pst (W := tst) := pstart (mkT g [] es todo).

  (** ** Under a [Blink] *)

  (** [Kept]: a [BlinkAlloc] on the shared allocator, which belongs to the [Blink]; its [reset]
      (local.rs 244-250) returns chunks to the shared allocator.  [Left]: a proxy; its [reset]
      (sync.rs 542-546) leaves them.  [Lent]: a reference to one of these ([reset] does nothing:
      api.rs 46-52). *)
  Inductive tenure := Kept | Left | Lent.
  Definition tenure_reset (k : tenure) : M (AW (W := tst)) unit :=
    match k with
    | Kept => blink_reset (threaded su t)
    | Left => arena_reset_leak (threaded su t) true
    | Lent => ret tt
    end.
  Definition is_lent (k : tenure) : bool := match k with Lent => true | _ => false end.
End ThreadProxy.
