(** The end of a [Blink] (C65): its values are dropped, then its allocator. *)
From Verif Require Import Base BaseFacts Alloc AllocFacts Arena ArenaFacts ArenaInv ArenaOps BlinkAlloc BlinkFacts
  History HistoryFacts Setup SetupFacts Blink BlinkInv BlinkReset BlinkIter BlinkMain BlinkEnv BlinkLog BlinkYield BlinkProps BlinkFate BlinkDemo.

(** Dropping a [Blink]: [Drop for Blink] (blink.rs 202-207), then its fields; the drop list
    has no destructor, [drop_alloc] is that of the allocator.  The fields are dropped when
    [Drop::drop] panics, too; a panic in there would abort. *)
Definition blink_gone (E : env) (drop_alloc : M (e_W E) unit) : M (bl (e_W E)) unit :=
  on_unwind (blink_drop_all (e_A E) (e_bomb E)) (on_alloc drop_alloc) ;;; on_alloc drop_alloc.

(** [BlinkAlloc] owned by the [Blink]. *)
Definition owned_gone (su : setup) (bomb : Z -> Z -> bool) : M (bl (e_W (owned su bomb))) unit :=
  blink_gone (owned su bomb) (blink_drop (bot su) (su_dbg su)).
(** A reference to one: dropping it does nothing. *)
Definition borrowed_gone (su : setup) (bomb : Z -> Z -> bool) : M (bl (e_W (borrowed su bomb))) unit :=
  blink_gone (borrowed su bomb) (ret tt).

(** What is still allocated from the underlying allocator. *)
Definition left_over {su bomb} (s : bl (e_W (owned su bomb))) : list ublock := outstanding (bw_trace (snd (bl_w s))).

Section Gone.
  Variable su : setup.
  Variable bomb : Z -> Z -> bool.
  Hypothesis Hok : setup_ok su.
  Hypothesis Hs : ISIZE_MAX <= su_smax su.

  Lemma drop_own aw us : sown su aw us ->
    wp (blink_drop (bot su) (su_dbg su)) aw (fun _ aw' => outstanding (bw_trace (snd aw')) = []).
  Proof.
    intros (cs & R & Hj & Hm). unfold blink_drop. apply wp_bind. destruct aw as [ar w]. cbn [fst snd] in *.
    eapply wp_mono; [apply (reset_final_ok su Hok cs _ _ _ R)|].
    intros _ [ar' w'] (_ & H1 & H2 & _). cbn [fst snd] in *.
    unfold wp. cbn [fst snd]. rewrite H2. unfold debug_assert. destruct (su_dbg su); cbn; exact H1.
  Qed.

  Lemma owned_gone_ok fr w os s : arrives (owned su bomb) fr w os s ->
    match owned_gone su bomb s with
    | ORet _ s' => clean (owned su bomb) s s' /\ left_over s' = [] /\ bads bomb (due (owned su bomb) s) = 0%nat
    | OPanic s' => clean (owned su bomb) s s' /\ left_over s' = [] /\ bads bomb (due (owned su bomb) s) = 1%nat
    | OAbort => (2 <= bads bomb (due (owned su bomb) s))%nat
    | OUB => False
    end.
  Proof.
    intros Ha. pose proof (owned_ok su bomb Hok Hs) as HE.
    pose proof (reset_fate (owned su bomb) HE fr w os s BDropAll Ha (or_intror eq_refl)) as F.
    pose proof (arrived_step (owned su bomb) HE fr w os s BDropAll Ha eq_refl) as S.
    unfold owned_gone, blink_gone, bind, on_unwind, erun1 in *. cbn [bstep] in F, S. unfold safe in S.
    destruct (blink_drop_all (e_A (owned su bomb)) (e_bomb (owned su bomb)) s) as [[] s1|s1| |].
    - destruct S as ((junk & Ow & _) & _). pose proof (drop_own _ _ Ow) as D. unfold wp in D. unfold on_alloc.
      destruct (blink_drop (bot su) (su_dbg su) (bl_w s1)) as [[] aw| | |]; try contradiction.
      destruct F as [(C1 & C2 & C3) Hb]. split; [split; [exact C1|split; [exact C2|exact C3]]|]. split; [exact D|exact Hb].
    - destruct S as ((junk & Ow & _) & _). pose proof (drop_own _ _ Ow) as D. unfold wp in D. unfold on_alloc.
      destruct (blink_drop (bot su) (su_dbg su) (bl_w s1)) as [[] aw| | |]; try contradiction.
      destruct F as [(C1 & C2 & C3) Hb]. split; [split; [exact C1|split; [exact C2|exact C3]]|]. split; [exact D|exact Hb].
    - exact F.
    - exact F.
  Qed.

  Lemma borrowed_gone_ok fr w os s : arrives (borrowed su bomb) fr w os s ->
    match borrowed_gone su bomb s with
    | ORet _ s' => clean (borrowed su bomb) s s' /\ bl_w s' = bl_w s /\ bads bomb (due (borrowed su bomb) s) = 0%nat
    | OPanic s' => clean (borrowed su bomb) s s' /\ bl_w s' = bl_w s /\ bads bomb (due (borrowed su bomb) s) = 1%nat
    | OAbort => (2 <= bads bomb (due (borrowed su bomb) s))%nat
    | OUB => False
    end.
  Proof.
    intros Ha. pose proof (borrowed_ok su bomb Hok Hs) as HE.
    pose proof (reset_fate (borrowed su bomb) HE fr w os s BDropAll Ha (or_intror eq_refl)) as F.
    pose proof (reads_reset (borrowed su bomb) s) as R.
    unfold borrowed_gone, blink_gone, bind, on_unwind, erun1 in *. cbn [bstep] in F.
    destruct (blink_drop_all (e_A (borrowed su bomb)) (e_bomb (borrowed su bomb)) s) as [[] s1|s1| |]; cbn [on_alloc ret].
    - destruct F as [C Hb]. split; [exact C|]. split; [exact R|exact Hb].
    - destruct F as [C Hb]. split; [exact C|]. split; [exact R|exact Hb].
    - exact F.
    - exact F.
  Qed.
End Gone.

(** For the example: what a state says after the end of its [Blink]. *)
Definition at_end (s : outcome (bl (e_W Eb)) unit) : option (bool * list bev * nat) :=
  match s with
  | ORet _ s' => Some (false, bl_log s', length (outstanding (bw_trace (snd (bl_w s')))))
  | OPanic s' => Some (true, bl_log s', length (outstanding (bw_trace (snd (bl_w s')))))
  | _ => None
  end.
