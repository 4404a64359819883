(** Several [BlinkAlloc]s on one allocator: an example. *)
From Verif Require Import Base BaseFacts Alloc AllocFacts Arena BlinkAlloc History Setup SetupFacts Concrete Wraps WrapsFacts WrapsProps.

Definition wfinal (su : setup) (xs : list wact) : wst := match wrun su xs wstart with ORet _ s => s | _ => wstart end.
Definition wresults (su : setup) (xs : list wact) : list (option block) :=
  match wrun su xs wstart with ORet rs _ => rs | _ => [] end.
Lemma wfinal_run su xs : wraps_ok su xs -> wrun su xs wstart = ORet (wresults su xs) (wfinal su xs).
Proof. intros [Hok Hm]. destruct (all_run su Hok xs Hm) as (rs & s & E). unfold wresults, wfinal. rewrite E. reflexivity. Qed.

(** The first gets two chunks and is unwrapped; the second, with a larger chunk size, is emptied
    and unwrapped; the third is dropped; in between there is direct use.  Writes through blocks of
    the first go on; [OpAlloc] and [OpDealloc] on it are not possible any more. *)
Definition sharing : list wact :=
  [WNew 256; WNew 4096; WUse 0 (OpAlloc (L 40 8) false); WDirect (OpAlloc (L 16 8) false); WUse 1 (OpAlloc (L 100 1) true);
   WUse 0 (OpWrite 0 0 [Byte 1; Byte 2]); WUse 0 (OpAlloc (L 1000 16) false); WUse 1 (OpWrite 0 99 [Byte 3]);
   WDirect (OpWrite 0 0 [Byte 4]); WUnwrap 0; WUse 0 (OpDealloc 0 (L 40 8)); WUse 0 (OpAlloc (L 8 8) false)].
Definition sharing_on : list wact :=
  [WNew 1; WUse 2 (OpAlloc (L 8 8) false); WUse 1 (OpResize 0 (L 100 1) (L 5000 1)); WUse 0 (OpWrite 0 39 [Byte 5]);
   WUse 1 (OpReset false); WUnwrap 1; WDrop 2; WDrop 0; WDirect (OpResize 0 (L 16 8) (L 32 8))].
Lemma sharing_ok f xs : forallb (fun a => match a with WNew min => (1 <=? min) && (min <=? 2 ^ 20) | _ => true end) xs = true ->
  Forall (min_fine (demo f)) xs.
Proof.
  intros H. apply Forall_forall. intros a Ha. rewrite forallb_forall in H. specialize (H a Ha). destruct a; cbn [min_fine]; auto.
  apply andb_prop in H. destruct H as [H1 H2]. apply Z.leb_le in H1, H2.
  unfold setup_ok, with_min, demo; cbn [su_dbg su_amax su_smax su_bmax su_min su_strat].
  split; [apply checked_honest|]. unfold USIZE_MAX, ISIZE_MAX. repeat split; try lia.
Qed.
Notation dm := (demo megabytes).
