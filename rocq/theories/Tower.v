(** Blink allocators stacked on each other, to any depth: each level is a
    [BlinkAlloc] whose underlying allocator is the level below, the lowest is
    the adversarial bottom allocator. *)
From Coq Require Import Permutation.
From Verif Require Import Base BaseFacts Alloc AllocFacts Arena ArenaFacts ArenaInv ArenaOps
  BlinkAlloc BlinkFacts History HistoryFacts.

(** A level: its chunk size and the largest request its clients make. *)
Record level := mkLevel { lv_min : Z; lv_smax : Z }.

Fixpoint TW (ls : list level) : Type :=
  match ls with [] => bworld | _ :: ls' => (Arena * TW ls')%type end.

Section Tower.
  Variable dbg : bool.
  Variable bmax : Z.
  Variable S : strategy.

  Fixpoint tower (ls : list level) : Allocator (TW ls) :=
    match ls with
    | [] => base bmax S
    | _ :: ls' => blink (tower ls') dbg
    end.

  Fixpoint tower_start (ls : list level) : TW ls :=
    match ls with
    | [] => bworld0
    | l :: ls' => (arena_with_chunk_size (lv_min l), tower_start ls')
    end.

  Definition top_smax (ls : list level) : Z :=
    match ls with [] => bmax | l :: _ => lv_smax l end.

  (** Resetting the top level. *)
  Definition tower_reset (ls : list level) (keep : bool) : M (TW ls) unit :=
    match ls with
    | [] => ret tt
    | l :: ls' => if keep then blink_reset (tower ls') else blink_reset_final (tower ls')
    end.

  (** Every level's configuration suits the level below. *)
  Fixpoint tower_ok (amax : Z) (ls : list level) : Prop :=
    match ls with
    | [] => True
    | l :: ls' =>
        0 <= lv_min l <= USIZE_MAX /\ cfg_ok dbg amax (lv_smax l) (lv_min l) (top_smax ls') /\
        tower_ok amax ls'
    end.

  Variable amax : Z.
  Hypothesis Hamax : 0 <= amax <= USIZE_MAX.
  Hypothesis Hbot : amax <= bmax.
  Hypothesis Hhon : honest amax S.

  Fixpoint tower_own (ls : list level) : TW ls -> list ublock -> Prop :=
    match ls with
    | [] => base_own amax bmax
    | l :: ls' => blink_own amax (tower ls') (tower_own ls') (fun _ _ => True) [] (lv_min l)
    end.

  Lemma tower_contract ls : tower_ok amax ls ->
    contract amax (top_smax ls) (tower ls) (tower_own ls).
  Proof.
    induction ls as [|l ls IH]; intros H; cbn [tower tower_own top_smax].
    - apply base_contract; assumption.
    - destruct H as (_ & H2 & H3).
      apply (blink_contract amax (lv_smax l) (top_smax ls) (tower ls) (tower_own ls) (IH H3) Hamax).
      + apply jinv_true.
      + exact H2.
  Qed.

  Lemma tower_start_own ls : tower_ok amax ls -> tower_own ls (tower_start ls) [].
  Proof.
    induction ls as [|l ls IH]; intros H; cbn [tower_start tower_own].
    - split; [|exact I]. split; [|constructor]. split; constructor; constructor.
    - destruct H as (H1 & _ & H3). exists []. split; [|split; [exact I|reflexivity]].
      apply (arep_new amax (top_smax ls) (tower ls) (tower_own ls) []);
        [apply tower_contract; exact H3|apply IH; exact H3|exact H1].
  Qed.

  Lemma tower_reset_own l ls k w us : tower_ok amax (l :: ls) -> tower_own (l :: ls) w us ->
    wp (tower_reset (l :: ls) k) w (fun _ w' => tower_own (l :: ls) w' []).
  Proof.
    intros (_ & _ & H3) (cs & R & _ & Hm). destruct w as [ar w]. cbn [fst snd] in *.
    pose proof (tower_contract ls H3) as Hct. cbn [tower_reset]. destruct k.
    - eapply wp_mono; [apply (arena_reset_keep_ok amax (top_smax ls) (tower ls) (tower_own ls) Hct [] cs ar w us R)|].
      intros _ aw' (_ & M1 & H). destruct cs as [|c cs].
      + subst aw'. exists []. split; [|split; [exact I|exact Hm]].
        destruct R as [R1 R2 R3 R4 R5 R6 R7 R8]. constructor; auto; constructor.
      + eexists. split; [exact H|]. split; [exact I|]. cbn [fst] in M1. congruence.
    - eapply wp_mono; [apply (arena_reset_final_ok amax (top_smax ls) (tower ls) (tower_own ls) Hct [] cs ar w us R)|].
      intros _ aw' (_ & M1 & _ & _ & H). exists []. split; [exact H|]. split; [exact I|].
      cbn [fst] in M1. congruence.
  Qed.

  (** A client of the top level sees independent buffers. *)
  Lemma tower_run l ls ops : tower_ok amax (l :: ls) ->
    exists rs st, run (lv_smax l) (tower (l :: ls)) (tower_reset (l :: ls)) ops
                      (mkCst [] (tower_start (l :: ls))) = ORet rs st /\
      length rs = length ops /\
      Forall (u_ok amax) (live (c_tab st)) /\ pairwise disjoint_u (live (c_tab st)) /\
      agrees (al_mem (tower (l :: ls)) (c_w st)) (c_tab st) (srun ops (map (option_map b_len) rs) []).
  Proof.
    intros H. pose proof (tower_contract (l :: ls) H) as Hct.
    pose proof (run_ok amax (lv_smax l) (tower (l :: ls)) (tower_own (l :: ls)) (tower_reset (l :: ls)) Hct
                  (fun k w us Ho => tower_reset_own l ls k w us H Ho) ops
                  (mkCst [] (tower_start (l :: ls))) []) as Hr.
    specialize (Hr (conj (tower_start_own (l :: ls) H) (Forall2_nil _))).
    apply wp_inv in Hr. destruct Hr as (rs & st & E & Hl & Ho & Ha).
    exists rs, st. split; [exact E|]. split; [exact Hl|].
    destruct (ct_wf _ _ _ _ Hct _ _ Ho) as [W1 W2]. auto.
  Qed.
End Tower.
