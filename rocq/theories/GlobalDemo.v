(** Concrete histories of a global allocator. *)
From Verif Require Import Base BaseFacts Alloc AllocFacts Arena BlinkAlloc History HistoryFacts Setup SetupFacts Concrete
  BlinkDemo Global GlobalFacts GlobalProps.

(** [realloc] in direct mode calls the wrong one of [grow] and [shrink]: undefined
    behaviour whenever the sizes differ. *)
Lemma direct_realloc_ub smax S dbg p l n s :
  p <> 0 -> layout_okb (mkLayout n (l_align l)) = true -> n <> l_size l -> g_on s = false ->
  g_realloc (base smax S) dbg p l n s = OUB.
Proof.
  intros Hp Hl Hn Hm. unfold g_realloc. rewrite Hl. replace (p =? 0) with false by lia. rewrite Hm.
  unfold on_aw, st_resize, inner, with_aw, bind. cbn [l_size].
  destruct (Z.leb_spec n (l_size l)); cbn [base al_grow al_shrink].
  - unfold base_grow. cbn [l_size]. replace (l_size l <=? n) with false by lia. reflexivity.
  - unfold base_shrink. cbn [l_size]. replace (n <=? l_size l) with false by lia. reflexivity.
Qed.

Definition answers {W} (o : outcome W (list gres)) : list gres := match o with ORet rs _ => rs | _ => [] end.

(** The client's live blocks, by mode. *)
Definition alive {B} (o : outcome (gcst (W := bworld)) B) : list (option bool) :=
  match o with ORet _ c => map (option_map fst) (gc_tab c) | _ => [] end.

(** Enlarging, and reducing. *)
Definition enlarges : list gop := [GAlloc (L 16 8) false; GRealloc 0 32].
Definition reduces : list gop := [GAlloc (L 16 8) false; GRealloc 0 8].
Lemma direct_realloc_refuted : exists su, setup_ok su /\ forall sync,
  grun (bot su) (su_dbg su) sync (su_smax su) (fun _ _ => true) enlarges (gstart su) = OUB /\
  grun (bot su) (su_dbg su) sync (su_smax su) (fun _ _ => true) reduces (gstart su) = OUB.
Proof.
  exists (demo megabytes). split; [apply demo_ok|]. intros sync. split; destruct sync; vm_compute; reflexivity.
Qed.

(** Both modes; one block survives the switches. *)
Definition tour : list gop :=
  [GAlloc (L 16 8) true; GWrite 0 0 [Byte 7; Byte 8]; GBlink; GAlloc (L 32 8) false; GWrite 1 0 [Byte 1];
   GRealloc 1 64; GDealloc 0; GAlloc (L 8 8) true; GDealloc 2; GReset; GDealloc 1; GReset; GAlloc (L 24 8) true; GDealloc 3; GDirect;
   GRealloc 0 16; GAlloc (L 5 1) false].
