(** Others at work beside a [Blink], and several [Blink]s on one allocator: examples. *)
From Verif Require Import Base BaseFacts Alloc AllocFacts Arena BlinkAlloc BlinkFacts History HistoryFacts Setup SetupFacts Concrete
  Blink BlinkInv BlinkReset BlinkOps BlinkIter BlinkMain BlinkEnv BlinkProps BlinkDemo Among AmongFacts Crowd CrowdFacts.

(** Others allocate, write, resize and free around the first calls of the [Blink]. *)
Definition busy : list (list op) :=
  [[OpAlloc (mkLayout 24 8) false; OpWrite 0 0 [Byte 9; Byte 8]];
   [OpAlloc (mkLayout 16 16) true];
   [OpResize 0 (mkLayout 24 8) (mkLayout 48 8); OpWrite 1 3 [Byte 5]; OpReset true];
   [OpAlloc (mkLayout 100 4) false];
   [OpWrite 2 99 [Byte 7]; OpDealloc 1 (mkLayout 16 16)]].
Definition wn : nst (AW (W := bworld)) := joined (c_w others) busy.
Lemma wn_ready : ready (among others_env) (live (c_tab others)) wn.
Proof. apply joined_ready; [reflexivity|]. apply others_ready. Qed.

(** What the others see of their blocks at the given places. *)
Definition peek {W} (A : Allocator W) (n : nst W) (at_ : list (nat * Z)) : list (option cell) :=
  map (fun p => match get (fst p) (c_tab (n_cst n)) with
                | Some u => Some (al_mem A (c_w (n_cst n)) (u_ptr u + snd p))
                | None => None
                end) at_.

(** Two [Blink]s at once; the first is dropped, a third one comes. *)
Definition meeting : list cact :=
  [CNew; CNew; COp 0 (put dropper 5); COp 1 (put dropper 6); COp 0 (put u64 7);
   COp 1 (BFromIter Put Try boxed (yields 1 [21; 22; 23] done)); COp 0 (BSet 0 0 8); CDrop 0; COp 0 (put u64 1);
   CNew; COp 2 (put dropper 9); COp 1 BReset; COp 1 (put u64 4)].
Definition crowd_last {E : env} (w : e_W E) (xs : list cact) : crowd (e_W E) :=
  match crowd_run E xs (mkCrowd w []) with ORet _ c => c | _ => mkCrowd w [] end.
Definition crowd_returns {E : env} (w : e_W E) (xs : list cact) : bool :=
  match crowd_run E xs (mkCrowd w []) with ORet _ _ => true | _ => false end.
Lemma crowd_last_gathers {E : env} fr (w : e_W E) xs : ready E fr w -> e_shared E = true -> forallb (crowd_sound E) xs = true ->
  crowd_returns w xs = true -> gathers E fr w xs (crowd_last w xs).
Proof.
  intros H1 H2 H3 H4. split; [exact H1|]. split; [exact H2|]. split; [exact H3|]. unfold crowd_returns, crowd_last in *.
  destruct (crowd_run E xs (mkCrowd w [])) as [[] c| | |]; congruence.
Qed.
(** For each [Blink]: whether it is still there, its references with their contents, its log. *)
Definition crowd_shown {E : env} (c : crowd (e_W E)) : list (bool * list (Z * list (option Z)) * list bev) :=
  map (fun x => (fst x, shown (seat (cr_w c) (snd x)), bl_log (snd x))) (cr_all c).
Definition meeting_result : list (bool * list (Z * list (option Z)) * list bev) :=
  [(false, [], [ENew true 2 [Some 5]; ENew false 1 [Some 7]; ESet 0 0 8; EReset; EDrop 2 8]);
   (true, [(1, [Some 4])],
     [ENew true 2 [Some 6]; EYield 3 21; EYield 3 22; EYield 3 23; ENew true 3 [Some 21; Some 22; Some 23];
      EReset; EDrop 3 21; EDrop 3 22; EDrop 3 23; EDrop 2 6; ENew false 1 [Some 4]]);
   (true, [(2, [Some 9])], [ENew true 2 [Some 9]])].
