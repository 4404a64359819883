(** Concrete cases for C80. *)
From Verif Require Import Base BaseFacts Alloc AllocFacts Arena ArenaFacts BlinkAlloc History HistoryFacts Setup SetupFacts Concrete Tower
  Blink BlinkInv BlinkEnv BlinkYield BlinkProps BlinkDemo Proxy ProxyProps Global GlobalProps Param Dirty DirtyFacts DirtyProps.

(** Two [BlinkAlloc]s on each other, in a debug build. *)
Definition storeys : list level := [mkLevel 256 ISIZE_MAX; mkLevel 512 (ISIZE_MAX + 2 ^ 48)].
Lemma storeys_ok : tower_ok true USIZE_MAX (2 ^ 47) storeys.
Proof. cbn [tower_ok storeys lv_min lv_smax top_smax]. unfold cfg_ok, USIZE_MAX, ISIZE_MAX. repeat split; try lia. Qed.

(** Dirt that looks like pointers, and depends on what happened before. *)
Definition grit (tr : list uevent) (x : Z) : cell := Head (x * 31 + Z.of_nat (length tr)).
Fixpoint dust (ls : list level) : TW ls -> Z -> cell :=
  match ls return TW ls -> Z -> cell with
  | [] => fun w x => Head (x + Z.of_nat (length (bw_trace w)))
  | _ :: ls' => fun w x => match dust ls' (snd w) x with Head v => Head (v + 1) | c => c end
  end.
Definition mud (x : Z) : cell := Head (- x).

(** Somebody allocates, writes, gets more, and gives some of it back; then a [Blink] puts in values, is
    reset and puts in values in the same place. *)
Definition busy_ops : list op :=
  [OpAlloc (mkLayout 16 8) false; OpWrite 0 3 [Byte 7]; OpResize 0 (mkLayout 16 8) (mkLayout 40 8); OpAlloc (mkLayout 600 16) true;
   OpDealloc 1 (mkLayout 600 16); OpAlloc (mkLayout 24 8) false].
Definition twice : list bop := usual ++ [BReset] ++ nested.

Definition runs_on low high (m : mem) : outcome (cst (TW storeys)) (list (option block)) :=
  grimy_run true USIZE_MAX (checked (2 ^ 47) megabytes) low high storeys busy_ops (mkCst [] (grimy_start m storeys)).
Definition blink_runs low high (m : mem) : outcome (bl (TW storeys)) unit :=
  match runs_on low high m with
  | ORet _ st => grimy_blink true USIZE_MAX (checked (2 ^ 47) megabytes) low high false calm storeys twice (bl_new (c_w st))
  | _ => OUB
  end.
Definition seen (o : outcome (bl (TW storeys)) unit) : list (Z * list (option Z)) * list bev :=
  match o with
  | ORet _ s => (map (fun h => (h_id h, contents (bw_mem (snd (snd (bl_w s)))) h)) (live (bl_tab s)), bl_log s)
  | _ => ([], [])
  end.
(** How many of the first bytes the bottom allocator has handed out contain something. *)
Definition filled (o : outcome (bl (TW storeys)) unit) : nat :=
  match o with
  | ORet _ s => length (filter (fun i => match bw_mem (snd (snd (bl_w s))) (2 ^ 20 + Z.of_nat i) with Undef => false | _ => true end) (seq 0 1000))
  | _ => O
  end.

(** A program that reads what it has not written notices. *)
Definition peeks low : outcome bworld Z :=
  (r <- al_allocate (dirty_base USIZE_MAX (checked (2 ^ 47) megabytes) low) (mkLayout 1 1) ;;
   match r with Some b => mload (dirty_base USIZE_MAX (checked (2 ^ 47) megabytes) low) (b_ptr b) 1 | None => ret 0 end) bworld0.

Definition got_blocks (o : outcome (cst (TW storeys)) (list (option block))) : list (option block) := match o with ORet rs _ => rs | _ => [] end.
Lemma histories_at dbg bmax S amax ls low high m ops : 0 <= amax <= USIZE_MAX -> amax <= bmax -> honest amax S -> tower_ok dbg bmax amax ls -> ls <> [] ->
  exists rs st0 st, grimy_run dbg bmax S blank blanks ls ops (mkCst [] (grimy_start (fun _ => Undef) ls)) = ORet rs st0 /\
    grimy_run dbg bmax S low high ls ops (mkCst [] (grimy_start m ls)) = ORet rs st.
Proof.
  intros Ha Hb Hh H Hn. destruct ls as [|l ls]; [congruence|]. destruct (histories_same dbg bmax S amax Ha Hb Hh l ls low high m ops H) as (rs & st0 & st & E0 & E & _). eauto.
Qed.
Lemma any_dirt low high m : exists st, runs_on low high m =
  ORet [Some (mkBlock 1048640 16); None; Some (mkBlock 1048640 40); Some (mkBlock 2097216 600); None; Some (mkBlock 2097816 24)] st.
Proof.
  destruct (histories_at true USIZE_MAX (checked (2 ^ 47) megabytes) (2 ^ 47) storeys low high m busy_ops) as (rs & st0 & st & E0 & E);
    [unfold USIZE_MAX; lia|unfold USIZE_MAX; lia|apply checked_honest|exact storeys_ok|discriminate|].
  assert (X : got_blocks (runs_on blank blanks (fun _ => Undef)) = rs) by (unfold runs_on; rewrite E0; reflexivity).
  exists st. unfold runs_on. rewrite E, <- X. replace (got_blocks _) with
    [Some (mkBlock 1048640 16); None; Some (mkBlock 1048640 40); Some (mkBlock 2097216 600); None; Some (mkBlock 2097816 24)]; [reflexivity|]. vm_compute. reflexivity.
Qed.
Definition value_of (o : outcome bworld Z) : Z := match o with ORet v _ => v | _ => 0 end.
