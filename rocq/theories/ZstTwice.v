(** Collecting zero-sized values drops each of them while it is collected (C40). *)
From Verif Require Import Base BaseFacts Alloc AllocFacts Arena History HistoryFacts Blink BlinkInv BlinkReset BlinkIter BlinkMain
  BlinkEnv BlinkLog BlinkYield BlinkProps BlinkFate BlinkEntry DrainBlink.

(** The values before the first [None]. *)
Fixpoint taken (l : list next_end) : list Z :=
  match l with NSome v :: l' => v :: taken l' | _ => [] end.
(** Yielded, and dropped at once. *)
Definition both (id v : Z) : list bev := [EYield id v; EEarly id v].

Lemma taken_count l : until_none l = Z.of_nat (length (taken l)).
Proof. induction l as [|[v| |] l IH]; cbn [until_none taken length]; lia. Qed.

Lemma map_repeat {X Y} (f : X -> Y) x n : map f (repeat x n) = repeat (f x) n.
Proof. induction n as [|n IH]; [reflexivity|]. cbn [repeat map]. rewrite IH. reflexivity. Qed.

Section Twice.
  Context {W : Type} (bomb : Z -> Z -> bool) (dbg : bool) (T : ty).
  Hypothesis Hdrop : t_drop T = true.
  Notation its_t := (list (Z * option Z * M (bl W) (option Z))).
  Notation gone s s' vs := (bl_log s' = bl_log s ++ flat_map (both (t_id T)) vs).

  Lemma next_takes (its : its_t) last outs (s : bl W) : drawn its last outs -> yielders its ->
    does (next T (its, last)) s (fun r s' =>
      match outs with
      | NSome v :: outs' => r = (Some v, (tl its, last)) /\ drawn (tl its) last outs' /\ yielders (tl its) /\
          bl_log s' = bl_log s ++ [EYield (t_id T) v]
      | _ => fst r = None /\ bl_log s' = bl_log s
      end).
  Proof.
    intros D Y. unfold next. cbn [fst snd]. destruct its as [|[h m] its].
    - destruct outs; [|contradiction]. apply does_ret. auto.
    - destruct outs as [|o outs]; [contradiction|]. destruct D as (_ & Hm & D). cbn [snd] in Hm.
      inversion Y as [|? ? Qm Y']; subst. cbn [snd] in Qm. pose proof (Qm s) as Qs. specialize (Hm s).
      unfold does, bind in *. destruct (m s) as [r s1| | |]; auto. specialize (Hm r s1 eq_refl). destruct Qs as [_ L].
      destruct o as [v| |]; cbv beta iota in Hm; [subst r|subst r|contradiction].
      + cbn. rewrite L. auto.
      + cbn. auto.
  Qed.

  Lemma early_logs v (s : bl W) : does (drop_early bomb T v) s (fun _ s' => bl_log s' = bl_log s ++ [EEarly (t_id T) v]).
  Proof. unfold drop_early. rewrite Hdrop. unfold does, bind, log. destruct (bomb (t_id T) v); cbn; auto. Qed.

  Lemma nth_takes last : forall (its : its_t) n outs s, drawn its last outs -> yielders its -> 0 <= n < until_none outs ->
    does (drain_nth bomb T n its last) s (fun r s' => fst r = true /\
      exists its' vs outs', snd r = (its', last) /\ drawn its' last outs' /\ yielders its' /\
        taken outs = vs ++ taken outs' /\ Z.of_nat (length vs) = n + 1 /\ gone s s' vs).
  Proof.
    induction its as [|x its IH]; intros n outs s D Y Hn.
    - destruct outs; [cbn in Hn; lia|contradiction].
    - cbn [drain_nth]. apply does_bind. eapply does_mono; [apply (next_takes (x :: its) last outs s D Y)|].
      intros r s1 H. destruct outs as [|[v| |] outs]; cbn [until_none] in Hn; try lia.
      destruct H as (-> & D1 & Y1 & L1). cbn [tl] in *. cbn [fst snd].
      apply does_bind. eapply does_mono; [apply early_logs|]. intros [] s2 L2.
      destruct (Z.leb_spec n 0).
      + apply does_ret. cbn [fst snd]. split; [reflexivity|]. exists its, [v], outs. cbn [taken app length flat_map both].
        split; [reflexivity|]. split; [exact D1|]. split; [exact Y1|]. split; [reflexivity|]. split; [lia|].
        rewrite L2, L1, <- app_assoc. reflexivity.
      + eapply does_mono; [apply (IH (n - 1) outs s2 D1 Y1); lia|].
        intros r2 s3 (E & its' & vs & outs' & E2 & D2 & Y2 & T2 & N2 & L3). split; [exact E|].
        exists its', (v :: vs), outs'. cbn [taken app length flat_map both]. rewrite T2.
        split; [exact E2|]. split; [exact D2|]. split; [exact Y2|]. split; [reflexivity|]. split; [lia|].
        rewrite L3, L2, L1, <- !app_assoc. reflexivity.
  Qed.

  Lemma drain_takes last : forall fuel d (its : its_t) outs s, drawn its last outs -> yielders its ->
    0 <= d -> d + until_none outs <= USIZE_MAX ->
    does (drain dbg bomb fuel T d (its, last)) s (fun n s' => n = d + until_none outs /\ gone s s' (taken outs)).
  Proof.
    induction fuel as [|fuel IH]; intros d its outs s D Y Hd Hu; [exact I|]. cbn [drain].
    pose proof (hint_true its last outs D) as Hh. apply does_bind. unfold ask_hint.
    destruct (Z.eqb_spec (fst (hint (its, last))) PANICS) as [_|_]; [exact I|apply does_ret].
    destruct (Z.eqb_spec (fst (hint (its, last))) 0).
    - apply does_bind. eapply does_mono; [apply (next_takes its last outs s D Y)|]. intros r s1 H.
      assert (Stop : fst r = None /\ bl_log s1 = bl_log s -> until_none outs = 0 -> taken outs = [] ->
        does (match fst r with None => ret d | Some v => drop_early bomb T v ;;; d0 <- add_usize dbg d 1 ;; drain dbg bomb fuel T d0 (snd r) end) s1
          (fun n s' => n = d + until_none outs /\ gone s s' (taken outs))).
      { intros [-> L] U T0. apply does_ret. rewrite T0. cbn. rewrite app_nil_r. split; [lia|exact L]. }
      destruct outs as [|[v| |] outs]; [apply Stop; [exact H|reflexivity|reflexivity]| |apply Stop; [exact H|reflexivity|reflexivity]..].
      clear Stop. destruct H as (-> & D1 & Y1 & L1). cbn [fst snd until_none taken] in *. pose proof (until_none_nonneg outs).
      apply does_bind. eapply does_mono; [apply early_logs|]. intros [] s2 L2.
      unfold add_usize. replace (d + 1 <=? USIZE_MAX) with true by lia.
      apply does_bind, does_ret. eapply does_mono; [apply (IH (d + 1) (tl its) outs s2 D1 Y1); lia|].
      intros n s3 [-> L3]. split; [lia|]. rewrite L3, L2, L1, <- !app_assoc. reflexivity.
    - cbv zeta. set (lo := fst (hint (its, last))) in *. rewrite Z.min_l by lia.
      unfold sub_usize. replace (1 <=? lo) with true by lia. apply does_bind, does_ret.
      apply does_bind. cbn [fst snd]. eapply does_mono; [apply (nth_takes last its (lo - 1) outs s D Y); lia|].
      intros [b it'] s1 (Eb & its' & vs & outs' & E2 & D2 & Y2 & T2 & N2 & L2). cbn [fst snd] in *. subst b it'.
      assert (Hc : until_none outs = lo + until_none outs') by (rewrite !taken_count, T2, app_length; lia).
      pose proof (until_none_nonneg outs').
      unfold add_usize. replace (d + lo <=? USIZE_MAX) with true by lia. apply does_bind, does_ret.
      destruct (Z.eqb_spec (d + lo) USIZE_MAX).
      + apply does_ret. assert (Z0 : until_none outs' = 0) by lia. rewrite taken_count in Z0.
        destruct (taken outs') as [|v l] eqn:Et; [|cbn in Z0; lia]. rewrite T2, app_nil_r. split; [lia|exact L2].
      + eapply does_mono; [apply (IH (d + lo) its' outs' s1 D2 Y2); lia|].
        intros n3 s3 [-> L3]. split; [lia|]. rewrite L3, L2, T2, flat_map_app, <- app_assoc. reflexivity.
  Qed.
End Twice.

Section Collect.
  Variable E : env.
  Hypothesis HE : env_ok E.

  (** What collecting them leaves in the log. *)
  Lemma collect_early k tr T it s s' :
    t_size T = 0 -> t_drop T = true -> legal (BFromIter k tr T it) = true -> plain it = true -> true_hints it ->
    until_none (outs_of it) <= USIZE_MAX -> erun1 E (BFromIter k tr T it) s = ORet tt s' ->
    bl_log s' = bl_log s ++ flat_map (both (t_id T)) (taken (outs_of it)) ++
                  [ENew (dropping k T) (t_id T) (repeat (Some 0) (length (taken (outs_of it))))] \/
    (tr = Try /\ bl_log s' = bl_log s ++ [ENew false (t_id T) []; EFail]).
  Proof.
    intros Hz Hd Hl Hp Ht Hu Hr. rewrite run_from_iter, Hl in Hr. unfold from_iter in Hr. rewrite Hz, Z.eqb_refl in Hr.
    pose proof (biter_drawn E it Ht) as D.
    pose proof (plain_yielders (e_A E) (e_reset E) (e_dbg E) (e_bomb E) it Hp) as Y.
    destruct (biter _ _ _ _ it) as [its last]. cbn [fst snd] in *.
    assert (G : forall fuel s0 n s1, drain (e_dbg E) (e_bomb E) fuel T 0 (its, last) s0 = ORet n s1 ->
      Z.to_nat n = length (taken (outs_of it)) /\ bl_log s1 = bl_log s0 ++ flat_map (both (t_id T)) (taken (outs_of it))).
    { intros fuel s0 n s1 Ed. pose proof (drain_takes (e_bomb E) (e_dbg E) T Hd last fuel 0 its (outs_of it) s0 D Y ltac:(lia) ltac:(lia)) as H.
      unfold does in H. rewrite Ed in H. destruct H as [-> H]. split; [|exact H]. rewrite taken_count. lia. }
    unfold from_iter_zst in Hr. cbn [fst] in Hr. destruct (dropping k T) eqn:Ek.
    - unfold bind at 1 in Hr. pose proof (quiet_on_alloc (al_allocate (e_A E) (head_layout T)) s) as Q0. unfold does in Q0.
      destruct (on_alloc _ s) as [[b|] s1| | |]; try discriminate.
      + destruct Q0 as [_ L1].
        unfold bind at 1 in Hr. destruct (drain _ _ _ _ _ _ _) as [n s2| | |] eqn:Ed; try discriminate. apply G in Ed. destruct Ed as [En L2].
        unfold bind at 1 in Hr. pose proof (quiet_init (e_A E) (e_dbg E) T (b_ptr b) n s2) as Q2. unfold does in Q2.
        destruct (init_slice _ _ _ _ _ _) as [u s3| | |]; try discriminate. destruct Q2 as [_ L3].
        unfold bind at 1 in Hr. pose proof (quiet_add (e_A E) (b_ptr b) s3) as Q3. unfold does in Q3.
        destruct (drop_list_add _ _ _) as [u' s4| | |]; try discriminate. destruct Q3 as [_ L4].
        unfold hand_out in Hr. injection Hr as <-. cbn [bl_log h_item h_id]. left. rewrite L4, L3, L2, L1, En, <- app_assoc. reflexivity.
      + destruct Q0 as [_ L1]. destruct tr; try discriminate. unfold bind, hand_out, log in Hr. injection Hr as <-. cbn [bl_log h_item h_id].
        right. split; [reflexivity|]. rewrite L1, <- app_assoc. reflexivity.
    - unfold bind at 1 in Hr. destruct (drain _ _ _ _ _ _ _) as [n s2| | |] eqn:Ed; try discriminate. apply G in Ed. destruct Ed as [En L2].
      unfold hand_out in Hr. injection Hr as <-. cbn [bl_log h_item h_id]. left. rewrite L2, En, <- app_assoc. reflexivity.
  Qed.

  (** And what the next reset does. *)
  Lemma collect_twice fr w os s k tr T it s1 s2 :
    arrives E fr w os s -> with_dropping k T -> (forall id v, e_bomb E id v = false) ->
    t_size T = 0 -> legal (BFromIter k tr T it) = true -> sound (e_exact E) (BFromIter k tr T it) = true ->
    plain it = true -> true_hints it -> until_none (outs_of it) <= USIZE_MAX ->
    erun1 E (BFromIter k tr T it) s = ORet tt s1 -> erun1 E BReset s1 = ORet tt s2 ->
    let n := length (taken (outs_of it)) in
    (bl_log s1 = bl_log s ++ flat_map (both (t_id T)) (taken (outs_of it)) ++ [ENew true (t_id T) (repeat (Some 0) n)] /\
     exists older, bl_log s2 = bl_log s1 ++ EReset :: repeat (EDrop (t_id T) 0) n ++ older) \/
    (tr = Try /\ bl_log s1 = bl_log s ++ [ENew false (t_id T) []; EFail]).
  Proof.
    intros Ha Hk Hb Hz Hl Hs Hp Ht Hu R1 R2 n.
    destruct (collect_early k tr T it s s1 Hz (proj1 Hk) Hl Hp Ht Hu R1) as [L|R]; [left|right; exact R].
    rewrite (with_yes k T Hk) in L. split; [exact L|].
    assert (Ha1 : arrives E fr w (os ++ [BFromIter k tr T it]) s1) by (apply (goes_on E fr w os s (BFromIter k tr T it) s1 Ha Hs (or_introl R1))).
    destruct (reset_newest E HE fr w _ s1 s2 (t_id T) (repeat 0 n) Ha1) as (older & R); [|exact Hb|exact R2|].
    - rewrite app_assoc in L. eapply (shows_new E HE fr w _ s1 _ true (t_id T) (repeat 0 n) [] Ha1); [|constructor].
      rewrite map_repeat. exact L.
    - exists older. rewrite R, map_repeat. reflexivity.
  Qed.
End Collect.
