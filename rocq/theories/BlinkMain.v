(** Whole programs: the invariant holds throughout. *)
From Coq Require Import Permutation.
From Verif Require Import Base BaseFacts Alloc AllocFacts History HistoryFacts Blink BlinkInv BlinkReset BlinkOps BlinkIter.

Scheme bop_mut := Induction for bop Sort Prop
with bops_mut := Induction for bops Sort Prop
with script_mut := Induction for script Sort Prop.
Combined Scheme client_ind from bop_mut, bops_mut, script_mut.

(** What the calls of [next] return. *)
Fixpoint outs_of (it : script) : list next_end :=
  match it with SEnd _ _ => [] | SNext _ _ _ out rest => out :: outs_of rest end.

Lemma ended_outs it : ended it = endedl (outs_of it).
Proof. induction it as [|lo up body out rest IH]; [reflexivity|]. destruct out; cbn; auto. Qed.
Lemma fused_outs it : fused it = fusedl (outs_of it).
Proof.
  induction it as [|lo up body out rest IH]; [reflexivity|]. destruct out; cbn; auto. apply ended_outs.
Qed.

(** The lower bound of the first hint. *)
Definition first_lower (it : script) : Z := match it with SEnd lo _ | SNext lo _ _ _ _ => lo end.

(** The call after which [n] calls remain uses the [Blink] itself. *)
Fixpoint reenters (it : script) (n : nat) : bool :=
  match it with
  | SEnd _ _ => false
  | SNext _ _ body _ rest =>
      if (n =? length (outs_of rest))%nat then match body with BNil => false | BCons _ _ => true end else reenters rest n
  end.

Lemma reenters_small it n : reenters it n = true -> (n < length (outs_of it))%nat.
Proof.
  induction it as [|lo up body out rest IH]; cbn; [discriminate|]. destruct (Nat.eqb_spec n (length (outs_of rest))); [lia|].
  intros H. specialize (IH H). lia.
Qed.

(** [size_hint] panics when [n] calls of [next] remain. *)
Fixpoint hint_panics (it : script) (n : nat) : bool :=
  match it with
  | SEnd lo _ => (n =? 0)%nat && (lo =? PANICS)
  | SNext lo _ _ _ rest => if (n =? length (outs_of it))%nat then lo =? PANICS else hint_panics rest n
  end.

Lemma hint_panics_small it n : hint_panics it n = true -> (n <= length (outs_of it))%nat.
Proof.
  induction it as [|lo up body out rest IH]; cbn [hint_panics outs_of length].
  - destruct (Nat.eqb_spec n 0); [lia|discriminate].
  - destruct (Nat.eqb_spec n (S (length (outs_of rest)))); [lia|]. intros H. specialize (IH H). lia.
Qed.

Section Main.
  Context {W : Type} (amax smax : Z) (A : Allocator W) (own : W -> list ublock -> Prop).
  Hypothesis Hct : contract amax smax A own.
  Hypothesis Hsm : ISIZE_MAX <= smax.
  Variable alloc_reset : M W unit.
  Variable dbg : bool.
  Variable bomb : Z -> Z -> bool.
  Variable exact : bool.
  Hypothesis Hex : exact = true -> exact_alloc smax A own.
  Variable Fr : list ublock -> Prop.
  Hypothesis Hreset : forall w us fr, own w (us ++ fr) -> Fr fr ->
    wp alloc_reset w (fun _ w' => exists us', own w' (us' ++ fr) /\ same_on fr (al_mem A w) (al_mem A w')).
  Notation bmem := (bmem A).
  Notation binv := (binv A own bomb).
  Notation keeps := (keeps A).
  Notation body_ok := (body_ok A own bomb).
  Notation its_ok noisy loud := (its_ok A own bomb noisy loud).
  Notation heard loud := (heard loud).
  Notation iter := (@iter W).

  (** ** Zero-sized elements *)

  Lemma drop_early_ok T v fr s :
    binv fr s ->
    safe (drop_early bomb T v) s (fun _ s' => binv fr s' /\ keeps fr s s') (fun s' => binv fr s' /\ keeps fr s s').
  Proof.
    intros Hi. unfold drop_early. destruct (t_drop T).
    - apply safe_bind. eapply safe_log; [reflexivity|exact Hi|]. intros s1 B1 M1 _ _ L1.
      assert (K : keeps fr s s1) by (split; [rewrite M1; apply same_on_refl|eauto]).
      destruct (bomb (t_id T) v); [apply safe_panic|apply safe_ret]; auto.
    - apply safe_ret. split; [exact Hi|apply keeps_refl].
  Qed.

  Lemma drain_nth_ok noisy loud T : forall its n last outs fr s,
    its_ok noisy loud T its outs -> binv fr s ->
    safe (drain_nth bomb T n its last) s
      (fun r s' => binv fr s' /\ keeps fr s s' /\ snd (snd r) = last /\
         exists outs', its_ok noisy loud T (fst (snd r)) outs' /\ (length (fst (snd r)) <= length its)%nat /\
           (fst r = true -> length (fst (snd r)) < length its)%nat)
      (fun s' => binv fr s' /\ keeps fr s s').
  Proof.
    induction its as [|x its IH]; intros n last outs fr s Hits Hi; cbn [drain_nth].
    - apply safe_ret. cbn [fst snd]. split; [exact Hi|]. split; [apply keeps_refl|]. split; [reflexivity|].
      exists outs. split; [exact Hits|]. split; [lia|discriminate].
    - apply safe_bind. eapply safe_mono; [apply (next_ok smax A own bomb exact Hex noisy loud T (x :: its, last) outs fr s Hits Hi)| |].
      2: { intros s1 (B1 & K1 & _). auto. }
      intros [r it'] s1 (B1 & K1 & El & outs' & Ho & Ht & Hlen & Hv). cbn [fst snd] in *.
      assert (Eits : its_ok noisy loud T its outs').
      { destruct outs as [|o l]; [contradiction Hits|]. destruct Ht as (-> & _). apply Hits. }
      destruct r as [v|].
      + apply safe_bind. eapply safe_mono; [apply (drop_early_ok T v fr s1 B1)| |].
        2: { intros s2 [B2 K2]. split; [exact B2|eapply keeps_trans; eassumption]. }
        intros [] s2 [B2 K2]. assert (K02 : keeps fr s s2) by (eapply keeps_trans; eassumption).
        destruct (n <=? 0).
        * apply safe_ret. cbn [fst snd length]. split; [exact B2|]. split; [exact K02|]. split; [reflexivity|].
          exists outs'. split; [exact Eits|]. split; lia.
        * eapply safe_mono; [apply (IH (n - 1) last outs' fr s2 Eits B2)| |].
          -- intros [b it2] s3 (B3 & K3 & E3 & outs2 & H2 & Hl2 & Hb). cbn [fst snd length] in *.
             split; [exact B3|]. split; [eapply keeps_trans; eassumption|]. split; [exact E3|].
             exists outs2. split; [exact H2|]. split; lia.
          -- intros s3 [B3 K3]. split; [exact B3|eapply keeps_trans; eassumption].
      + apply safe_ret. cbn [fst snd length]. split; [exact B1|]. split; [exact K1|]. split; [reflexivity|].
        exists outs'. split; [exact Eits|]. split; [lia|discriminate].
  Qed.

  Lemma add_usize_ok d a b fr s :
    0 <= a -> 0 <= b -> binv fr s ->
    safe (add_usize d a b) s (fun r s' => s' = s /\ 0 <= r <= USIZE_MAX) (fun s' => s' = s).
  Proof.
    intros Ha Hb _. unfold add_usize, safe, ret, panic, wrap, USIZE_MAX.
    destruct (Z.leb_spec (a + b) (2 ^ 64 - 1)); [split; [reflexivity|lia]|].
    destruct d; [reflexivity|]. split; [reflexivity|]. pose proof (Z.mod_pos_bound (a + b) (2 ^ 64)). lia.
  Qed.

  Lemma drain_ok noisy loud T : forall fuel drained (it : iter) outs fr s,
    its_ok noisy loud T (fst it) outs -> hint_okb (fst (snd it)) (snd (snd it)) = true -> heard loud (fst (snd it)) 0 ->
    binv fr s -> 0 <= drained <= USIZE_MAX -> (length (fst it) < fuel)%nat ->
    safe (drain dbg bomb fuel T drained it) s
      (fun n s' => binv fr s' /\ keeps fr s s' /\ 0 <= n <= USIZE_MAX)
      (fun s' => binv fr s' /\ keeps fr s s').
  Proof.
    induction fuel as [|fuel IH]; intros drained it outs fr s Hits Hlast Hq Hi Hd Hf; [lia|]. cbn [drain].
    apply safe_bind. unfold ask_hint.
    destruct (hint_cases smax A own bomb exact Hex noisy loud T it outs Hits Hlast Hq) as [[E Hl]|[E Hh]].
    { rewrite E, Z.eqb_refl. apply safe_panic. split; [exact Hi|apply keeps_refl]. }
    destruct (Z.eqb_spec (fst (hint it)) PANICS) as [E2|_]; [contradiction|]. apply safe_ret.
    destruct (Z.eqb_spec (fst (hint it)) 0) as [E0|E0].
    - apply safe_bind. eapply safe_mono; [apply (next_ok smax A own bomb exact Hex noisy loud T it outs fr s Hits Hi)| |].
      2: { intros s1 (B1 & K1 & _). auto. }
      intros [r it'] s1 (B1 & K1 & El & outs' & Ho & Ht & Hlen & Hv). cbn [fst snd] in *.
      destruct r as [v|].
      2: { apply safe_ret. auto. }
      apply safe_bind. eapply safe_mono; [apply (drop_early_ok T v fr s1 B1)| |].
      2: { intros s2 [B2 K2]. split; [exact B2|eapply keeps_trans; eassumption]. }
      intros [] s2 [B2 K2]. assert (K02 : keeps fr s s2) by (eapply keeps_trans; eassumption).
      apply safe_bind. eapply safe_mono; [apply (add_usize_ok dbg drained 1 fr s2 ltac:(lia) ltac:(lia) B2)| |].
      2: { intros s3 ->. auto. }
      intros d s3 [-> Hd']. eapply safe_mono; [apply (IH d it' outs' fr s2 Ho)| |].
      + rewrite El. exact Hlast.
      + rewrite El. exact Hq.
      + exact B2.
      + exact Hd'.
      + lia.
      + intros n s4 (B4 & K4 & Hn). split; [exact B4|]. split; [eapply keeps_trans; eassumption|exact Hn].
      + intros s4 (B4 & K4). split; [exact B4|eapply keeps_trans; eassumption].
    - assert (Hsub : safe (sub_usize dbg (Z.min (fst (hint it)) (USIZE_MAX - drained)) 1) s (fun _ s' => s' = s) (fun s' => s' = s)).
      { unfold sub_usize, safe, ret, panic. destruct (_ <=? _); [reflexivity|]. destruct dbg; reflexivity. }
      apply safe_bind. eapply safe_mono; [exact Hsub| |].
      2: { intros s1 ->. split; [exact Hi|apply keeps_refl]. }
      intros n s1 ->.
      apply safe_bind. eapply safe_mono; [apply (drain_nth_ok noisy loud T (fst it) n (snd it) outs fr s Hits Hi)| |auto].
      intros [b it'] s1 (B1 & K1 & El & outs' & Ho & Hlen & Hb). cbn [fst snd] in *.
      destruct b.
      2: { apply safe_ret. auto. }
      apply safe_bind. eapply safe_mono; [apply (add_usize_ok dbg drained (Z.min (fst (hint it)) (USIZE_MAX - drained)) fr s1)| |].
      { lia. }
      { lia. }
      { exact B1. }
      2: { intros s3 ->. auto. }
      intros d s3 [-> Hd'].
      destruct (d =? USIZE_MAX); [apply safe_ret; split; [exact B1|split; [exact K1|unfold USIZE_MAX; lia]]|].
      eapply safe_mono; [apply (IH d it' outs' fr s1 Ho)| |].
      + rewrite El. exact Hlast.
      + rewrite El. exact Hq.
      + exact B1.
      + exact Hd'.
      + specialize (Hb eq_refl). lia.
      + intros m s4 (B4 & K4 & Hn). split; [exact B4|]. split; [eapply keeps_trans; eassumption|exact Hn].
      + intros s4 (B4 & K4). split; [exact B4|eapply keeps_trans; eassumption].
  Qed.

  (** How collecting zero-sized elements ends. *)
  Definition counted (k : entry) (tr : oom) (T : ty) (s s' : bl W) : Prop :=
    (exists n, 0 <= n <= USIZE_MAX /\ ends s s' [ENew (dropping k T) (t_id T) (repeat (Some 0) (Z.to_nat n))]) \/
    (tr = Try /\ dropping k T = true /\ bl_log s' = bl_log s ++ [ENew false (t_id T) []; EFail]).

  Lemma holds_zst m bs a T n g mt : t_size T = 0 -> 0 <= n ->
    holds m (mkH bs a (t_id T) (t_size T) (t_align T) n g mt) (repeat (Some 0) (Z.to_nat n)).
  Proof.
    intros Ez Hn. split; [rewrite repeat_length; cbn; lia|]. cbn [h_size]. rewrite Ez. cbn. intros i v Hi.
    apply nth_error_In in Hi. apply repeat_spec in Hi. congruence.
  Qed.

  Lemma from_iter_zst_ok noisy loud k tr T (it : iter) outs fr s :
    ty_okb T = true -> t_size T = 0 -> its_ok noisy loud T (fst it) outs -> hint_okb (fst (snd it)) (snd (snd it)) = true ->
    heard loud (fst (snd it)) 0 -> binv fr s ->
    safe (from_iter_zst A dbg bomb k tr T it) s
      (fun _ s' => binv fr s' /\ keeps fr s s' /\ counted k tr T s s')
      (fun s' => binv fr s' /\ keeps fr s s').
  Proof.
    intros HT Ez Hits Hlast Hq Hi. destruct (ty_ok_facts T HT) as (T1 & T2 & T3 & T4 & T5).
    unfold from_iter_zst. destruct (dropping k T) eqn:Ed.
    - destruct (array_off_facts T HT) as (O1 & O2 & O3 & O4 & O5 & O6 & O7).
      assert (Hreq : req_ok smax (head_layout T)) by (apply item_layout_req; auto; lia).
      apply safe_bind. eapply safe_mono; [apply (safe_allocate amax smax A own Hct bomb fr s _ (fun _ => False) Hi Hreq)| |intros ? []].
      intros [b|] s1 (C1 & S1 & B1).
      2: { destruct tr; [|apply safe_abort|apply safe_panic; split; [exact B1|apply same_control_keeps; assumption]]. apply safe_bind.
           eapply (safe_hand_out amax smax A own Hct bomb fr s1); [exact B1|reflexivity|eapply zero_ok; [exact Hex|exact HT]|].
           intros s2 B2 M2 L2. cbn [h_id] in L2. eapply safe_log; [reflexivity|exact B2|]. intros s3 B3 M3 _ _ L3.
           assert (L : bl_log s3 = bl_log s ++ [ENew false (t_id T) []; EFail]).
           { rewrite L3, L2. destruct C1 as (_ & _ & ->). rewrite <- app_assoc. reflexivity. }
           split; [exact B3|]. split; [split; [rewrite M3, M2; exact S1|eauto]|]. right. auto. }
      destruct B1 as [(G1 & G2 & G3 & G4) B1]. set (u := mkU (b_ptr b) (b_len b) (head_layout T)) in *.
      assert (K1 : keeps fr s s1) by (apply same_control_keeps; assumption).
      change (l_align (head_layout T)) with (item_align (t_align T)) in G2.
      change (l_size (head_layout T)) with (array_off true T) in G3.
      assert (P8 : b_ptr b mod 8 = 0) by (apply (mod_trans _ _ (item_align (t_align T))); lia).
      assert (Pal : b_ptr b mod t_align T = 0) by (apply (mod_trans _ _ (item_align (t_align T))); lia).
      apply safe_bind. eapply safe_mono; [apply (drain_ok noisy loud T (S (length (fst it))) 0 it outs (u :: fr) s1 Hits Hlast Hq B1)| |].
      { unfold USIZE_MAX; lia. }
      { lia. }
      2: { intros s2 [B2 K2]. split; [eapply binv_leak; exact B2|]. eapply keeps_trans; [exact K1|eapply keeps_tail; exact K2]. }
      intros n s2 (B2 & K2 & Hn). apply keeps_tail in K2.
      assert (K02 : keeps fr s s2) by (eapply keeps_trans; eassumption).
      unfold init_slice. apply safe_bind. apply safe_bind.
      assert (Tail : safe (write_drops A (b_ptr b) n (mkGlue (t_id T) (t_size T) (t_size T) (t_align T) 0) None) s2
        (fun _ s3 => safe (drop_list_add A (b_ptr b) ;;;
             hand_out (mkH [u] (b_ptr b + array_off true T) (t_id T) (t_size T) (t_align T) n
                        (Some (mkGlue (t_id T) (t_size T) (t_size T) (t_align T) 0)) (mutable k)) (repeat (Some 0) (Z.to_nat n))) s3
           (fun _ s' => binv fr s' /\ keeps fr s s' /\ counted k tr T s s') (fun s' => binv fr s' /\ keeps fr s s'))
        (fun s' => binv fr s' /\ keeps fr s s')).
      { eapply (safe_write_drops amax smax A own Hct bomb u fr); [exact B2|exact P8|cbn [u u_len]; lia|].
        intros s3 B3 C3 S3 L1 L2 Hf.
        eapply (safe_register amax smax A own Hct bomb u fr s3
                  (mkH [u] (b_ptr b + array_off true T) (t_id T) (t_size T) (t_align T) n
                       (Some (mkGlue (t_id T) (t_size T) (t_size T) (t_align T) 0)) (mutable k)));
          [exact B3|reflexivity|reflexivity| |exact L1|exact L2|].
        - cbn [agree registered h_item h_id]. split; [reflexivity|]. split; [reflexivity|]. split; [|split].
          + apply holds_zst; [exact Ez|lia].
          + unfold placed. cbn [h_size h_align h_ptr h_cnt h_blks h_item h_id]. unfold u. cbn [u_ptr u_len].
             split; [lia|]. split; [lia|]. split; [exact T5|]. split.
             { apply mod_add0; [lia|exact Pal|exact O2]. }
             split; [lia|]. split; [lia|]. split; [nia|]. cbn [g_id g_tsize g_xsize g_xalign g_xoff].
             split; [unfold glue_ok; cbn; lia|]. split; [reflexivity|]. split; [reflexivity|]. split; [exact P8|].
             split; [lia|]. split; [lia|]. right; reflexivity.
          + intros _. apply Forall_forall. intros x Hx. apply repeat_spec in Hx. congruence.
        - intros s' B' S' L'. cbn [h_id] in L'. split; [exact B'|].
          assert (K3 : keeps fr s2 s') by (split; [eapply same_on_trans; eassumption|destruct C3 as (_ & _ & E3); rewrite L', E3; eauto]).
          split; [eapply keeps_trans; eassumption|]. left. exists n. split; [exact Hn|].
          eapply ends_trans; [exact K02|]. apply ends_log. rewrite L', Ed. destruct C3 as (_ & _ & ->). reflexivity. }
      apply safe_debug; [intros _; exact Tail|intros _ _; exact Tail|].
      intros _. split; [eapply binv_leak; exact B2|exact K02].
    - apply safe_bind. eapply safe_mono; [apply (drain_ok noisy loud T (S (length (fst it))) 0 it outs fr s Hits Hlast Hq Hi)| |auto].
      { unfold USIZE_MAX; lia. }
      { lia. }
      intros n s2 (B2 & K2 & Hn).
      eapply (safe_hand_out amax smax A own Hct bomb fr s2); [exact B2|reflexivity| |].
      + cbn [agree registered h_item h_id]. split; [reflexivity|]. split; [reflexivity|]. split; [|split].
        * apply holds_zst; [exact Ez|lia].
        * unfold placed. cbn [h_size h_align h_ptr h_cnt h_blks h_item h_id].
          split; [lia|]. split; [lia|]. split; [exact T5|]. split; [apply Z_mod_same_full|].
          split; [lia|]. split; [reflexivity|left; exact Ez].
        * discriminate.
      + intros s' B' M' L'. cbn [h_id] in L'. split; [exact B'|].
        assert (K3 : keeps fr s2 s') by (split; [rewrite M'; apply same_on_refl|rewrite L'; eauto]).
        split; [eapply keeps_trans; eassumption|]. left. exists n. split; [exact Hn|].
        eapply ends_trans; [exact K2|]. apply ends_log. rewrite L', Ed. reflexivity.
  Qed.

  (** ** Operations *)
  Notation bstep := (bstep A alloc_reset dbg bomb).
  Notation brun := (brun A alloc_reset dbg bomb).
  Notation biter := (biter A alloc_reset dbg bomb).
  Notation bmain := (bmain A alloc_reset dbg bomb).

  (** How an operation that Rust lets through ends, and how one ends that panics. *)
  Definition did (o : bop) (s s' : bl W) : Prop :=
    match o with
    | BEmplace k tr T r e body out => emplaced k tr T out s s'
    | BCopy tr T vs => copied tr (t_id T) (map Some vs) s s'
    | BUninit tr T => copied tr (t_id T) [None] s s'
    | BFromIter k tr T it =>
        if t_size T =? 0 then counted k tr T s s' else collected (dropping k T) tr T [] (outs_of it) s s'
    | BSet h i v => bl_log s' = bl_log s \/ bl_log s' = bl_log s ++ [ESet h i v]
    | BReset | BDropAll => bl_log s' = bl_log s ++ reset_log bomb s
    end.
  Definition gave_up (o : bop) (s s' : bl W) : Prop :=
    match o with
    | BFromIter k tr T it =>
        if t_size T =? 0 then True
        else unwound (reenters it) (hint_panics it) (dropping k T) tr (lay_for (dropping k T) T (Z.max (first_lower it) FASTER_START) = None) T [] (outs_of it) s s'
    | BReset | BDropAll => bl_log s' = bl_log s ++ reset_log bomb s
    | BEmplace _ _ _ _ _ _ _ => True
    | BCopy tr _ _ | BUninit tr _ => uncopied tr s s'
    | BSet _ _ _ => False
    end.
  Definition legal (o : bop) : bool :=
    match o with
    | BEmplace k tr T r e body out =>
        ty_okb T && res_okb T r && res_okb T e && match out with COk v => value_okb T v | _ => true end
    | BCopy tr T vs =>
        ty_okb T && negb (t_drop T) && forallb (value_okb T) vs && (Z.of_nat (length vs) * t_size T + t_align T <=? 2 ^ 63)
    | BUninit tr T => ty_okb T
    | BFromIter k tr T it => ty_okb T && script_okb T it
    | _ => true
    end.

  Definition step_ok (nested : bool) (o : bop) : Prop :=
    forall fr s, binv fr s -> (nested = false -> Fr fr) ->
    safe (bstep nested o) s
      (fun _ s' => binv fr s' /\ keeps fr s s' /\
         ((legal o = true /\ ((o <> BReset /\ o <> BDropAll) \/ nested = false) /\ did o s s') \/ ((legal o = false \/ nested = true) /\ s' = s)))
      (fun s' => binv fr s' /\ keeps fr s s' /\ gave_up o s s').

  Lemma step_body o : step_ok true o -> body_ok (bstep true o).
  Proof.
    intros H fr s Hi. eapply safe_mono; [apply (H fr s Hi); discriminate| |].
    - intros [] s' (B & K & _). auto.
    - intros s' (B & K & _). auto.
  Qed.

  Lemma client_ok :
    (forall o, sound exact o = true -> forall nested, step_ok nested o) /\
    (forall os, sounds exact os = true -> body_ok (brun os)) /\
    (forall it, sound_script exact it = true -> forall T, script_okb T it = true ->
       forall noisy loud, (forall n, reenters it n = true -> noisy n = true) -> (forall n, hint_panics it n = true -> loud n = true) ->
       its_ok noisy loud T (fst (biter it)) (outs_of it) /\
       hint_okb (fst (snd (biter it))) (snd (snd (biter it))) = true /\ heard loud (fst (snd (biter it))) 0).
  Proof.
    apply client_ind.
    - intros k tr T r e body IH out Hs nested fr s Hi _. cbn [sound] in Hs. apply andb_true_iff in Hs. destruct Hs as [Hf Hb].
      cbn [Blink.bstep]. change (safe (if legal (BEmplace k tr T r e body out) then emplace A bomb k tr T r e (brun body) out else ret tt) s
        (fun _ s' => binv fr s' /\ keeps fr s s' /\
         ((legal (BEmplace k tr T r e body out) = true /\ ((BEmplace k tr T r e body out <> BReset /\ BEmplace k tr T r e body out <> BDropAll) \/ nested = false)
           /\ emplaced k tr T out s s') \/ ((legal (BEmplace k tr T r e body out) = false \/ nested = true) /\ s' = s)))
        (fun s' => binv fr s' /\ keeps fr s s' /\ True)).
      destruct (legal (BEmplace k tr T r e body out)) eqn:El.
      2: { apply safe_ret. split; [exact Hi|]. split; [apply keeps_refl|auto]. }
      cbn [legal] in El. apply andb_true_iff in El. destruct El as [El Hv]. apply andb_true_iff in El. destruct El as [El He].
      apply andb_true_iff in El. destruct El as [HT Hr].
      eapply safe_mono; [apply (emplace_ok amax smax A own Hct Hsm bomb k tr T r e (brun body) out fr s HT Hr He Hf)| |].
      + destruct out; auto.
      + apply IH. exact Hb.
      + exact Hi.
      + intros [] s' (B & K & E). split; [exact B|]. split; [exact K|]. left. split; [reflexivity|]. split; [|exact E].
        left. split; discriminate.
      + intros s' (B & K). auto.
    - intros tr T vs _ nested fr s Hi _. unfold step_ok in *. cbn [Blink.bstep gave_up did].
      assert (El : legal (BCopy tr T vs) = ty_okb T && negb (t_drop T) && forallb (value_okb T) vs && (Z.of_nat (length vs) * t_size T + t_align T <=? 2 ^ 63)) by reflexivity.
      destruct (_ && _ && _ && _) eqn:E.
      2: { apply safe_ret. split; [exact Hi|]. split; [apply keeps_refl|auto]. }
      apply andb_true_iff in E. destruct E as [E H3]. apply andb_true_iff in E. destruct E as [E H2].
      apply andb_true_iff in E. destruct E as [HT H1]. apply Z.leb_le in H3.
      eapply safe_mono; [apply (copy_slice_ok amax smax A own Hct Hsm bomb tr T vs fr s HT H2 H3 Hi)| |intros s' H; exact H].
      intros [] s' (B & K & C). split; [exact B|]. split; [exact K|]. left. split; [exact El|]. split; [|exact C].
      left. split; discriminate.
    - intros tr T _ nested fr s Hi _. cbn [Blink.bstep gave_up did legal].
      destruct (ty_okb T) eqn:HT.
      2: { apply safe_ret. split; [exact Hi|]. split; [apply keeps_refl|auto]. }
      eapply safe_mono; [apply (uninit_ok amax smax A own Hct Hsm bomb tr T fr s HT Hi)| |intros s' H; exact H].
      intros [] s' (B & K & C). split; [exact B|]. split; [exact K|]. left. split; [reflexivity|]. split; [|exact C].
      left. split; discriminate.
    - intros k tr T it IH Hs nested fr s Hi _. cbn [sound] in Hs. apply andb_true_iff in Hs. destruct Hs as [Hs Hg].
      cbn [Blink.bstep gave_up did legal]. destruct (ty_okb T && script_okb T it) eqn:E.
      2: { apply safe_ret. split; [exact Hi|]. split; [apply keeps_refl|auto]. }
      apply andb_true_iff in E. destruct E as [HT Ho]. destruct (IH Hs T Ho (reenters it) (hint_panics it) (fun _ H => H) (fun _ H => H)) as (Hits & Hlast & Hq).
      unfold from_iter. destruct (Z.eqb_spec (t_size T) 0) as [Ez|Ez].
      + eapply safe_mono; [apply (from_iter_zst_ok (reenters it) (hint_panics it) k tr T (biter it) (outs_of it) fr s HT Ez Hits Hlast Hq Hi)| |].
        * intros [] s' (B & K & C). split; [exact B|]. split; [exact K|]. left. split; [reflexivity|]. split; [|exact C].
          left. split; discriminate.
        * intros s' (B & K). auto.
      + eapply safe_mono; [apply (from_iter_sized_ok amax smax A own Hct Hsm dbg bomb exact Hex (reenters it) (hint_panics it) k tr T (biter it) (outs_of it) fr s HT Ez Hits Hlast Hq)| |].
        * unfold good_iter. rewrite <- fused_outs. cbn [orb] in Hg. destruct (dropping k T).
          -- apply andb_true_iff in Hg. destruct Hg. split; auto.
          -- apply orb_true_iff in Hg. split; [discriminate|]. destruct Hg; auto.
        * exact Hi.
        * intros [] s' (B & K & C). split; [exact B|]. split; [exact K|]. left. split; [reflexivity|]. split; [|exact C].
          left. split; discriminate.
        * intros s' (B & K & C). split; [exact B|]. split; [exact K|]. destruct it; exact C.
    - intros h i v _ nested fr s Hi _. cbn [Blink.bstep gave_up did legal].
      eapply safe_mono; [apply (set_elem_ok amax smax A own Hct bomb h i v fr s (fun _ => False) Hi)| |intros ? []].
      intros [] s' (B & K & C). split; [exact B|]. split; [exact K|]. left. split; [reflexivity|]. split; [|exact C].
      left. split; discriminate.
    - intros _ nested fr s Hi HF. cbn [Blink.bstep gave_up did legal]. destruct nested.
      { apply safe_ret. split; [exact Hi|]. split; [apply keeps_refl|auto]. }
      eapply safe_mono; [apply (reset_all_ok A own alloc_reset bomb Fr Hreset fr s Hi (HF eq_refl))| |].
      + intros [] s' (B & K & C). split; [exact B|]. split; [exact K|]. left. auto.
      + auto.
    - intros _ nested fr s Hi HF. cbn [Blink.bstep gave_up did legal]. destruct nested.
      { apply safe_ret. split; [exact Hi|]. split; [apply keeps_refl|auto]. }
      eapply safe_mono; [apply (drop_all_ok A own bomb fr s Hi)| |].
      + intros [] s' (B & K & C). split; [exact B|]. split; [exact K|]. left. auto.
      + auto.
    - intros _ fr s Hi. cbn [Blink.brun]. apply safe_ret. split; [exact Hi|apply keeps_refl].
    - intros o IHo os IHos Hs fr s Hi. cbn [sounds] in Hs. apply andb_true_iff in Hs. destruct Hs as [H1 H2].
      cbn [Blink.brun]. apply safe_bind.
      eapply safe_mono; [apply (step_body o (IHo H1 true) fr s Hi)| |auto].
      intros [] s1 [B1 K1]. eapply safe_mono; [apply (IHos H2 fr s1 B1)| |].
      + intros [] s2 [B2 K2]. split; [exact B2|eapply keeps_trans; eassumption].
      + intros s2 [B2 K2]. split; [exact B2|eapply keeps_trans; eassumption].
    - intros lo up _ T Ho noisy loud _ Hl. cbn [Blink.biter outs_of fst snd script_okb] in *. split; [exact I|]. split; [exact Ho|].
      intros ->. apply Hl. reflexivity.
    - intros lo up body IHb out rest IHr Hs T Ho noisy loud Hn Hl. cbn [sound_script] in Hs. apply andb_true_iff in Hs. destruct Hs as [H1 H2].
      cbn [script_okb] in Ho. apply andb_true_iff in Ho. destruct Ho as [Ho H3]. apply andb_true_iff in Ho. destruct Ho as [Hh Hv].
      destruct (IHr H2 T H3 noisy loud) as (Hits & Hlast).
      { intros n E. apply Hn. cbn [reenters]. pose proof (reenters_small _ _ E). destruct (Nat.eqb_spec n (length (outs_of rest))); [lia|exact E]. }
      { intros n E. apply Hl. cbn [hint_panics outs_of length]. pose proof (hint_panics_small _ _ E).
        destruct (Nat.eqb_spec n (S (length (outs_of rest)))); [lia|exact E]. }
      cbn [Blink.biter outs_of fst snd]. split; [|exact Hlast].
      split; [|exact Hits]. cbn [fst snd]. split.
      2: { split; [exact Hh|]. intros ->. apply Hl. cbn [hint_panics outs_of]. rewrite Nat.eqb_refl. reflexivity. }
      split; [destruct out; auto|].
      intros fr s Hi. unfold blamed.
      destruct body as [|o os].
      { cbn [Blink.brun]. apply safe_bind, safe_ret. destruct out; [apply safe_ret|apply safe_ret|apply safe_panic]; (split; [exact Hi|]); (split; [apply keeps_refl|]); auto. }
      assert (Hno : noisy (length (outs_of rest)) = true).
      { apply Hn. cbn [reenters]. rewrite Nat.eqb_refl. reflexivity. }
      apply safe_bind. eapply safe_mono; [apply (IHb H1 fr s Hi)| |].
      2: { intros s1 [B1 K1]. auto. }
      intros [] s1 [B1 K1]. destruct out; [apply safe_ret|apply safe_ret|apply safe_panic]; auto.
  Qed.

  Lemma bstep_ok o fr s :
    sound exact o = true -> binv fr s -> Fr fr ->
    safe (bstep false o) s
      (fun _ s' => binv fr s' /\ keeps fr s s' /\ ((legal o = true /\ did o s s') \/ (legal o = false /\ s' = s)))
      (fun s' => binv fr s' /\ keeps fr s s' /\ gave_up o s s').
  Proof.
    intros Hs Hi HF. eapply safe_mono; [apply (proj1 client_ok o Hs false fr s Hi (fun _ => HF))| |].
    - intros [] s' (B & K & [(L & _ & D)|([L|L] & ->)]); auto; discriminate.
    - auto.
  Qed.

  Lemma caught_ok (m : M (bl W) unit) s Q : safe m s (fun _ s' => Q s') Q -> safe (caught m) s (fun _ s' => Q s') (fun _ => False).
  Proof. unfold safe, caught. destruct (m s); auto. Qed.

  Lemma bmain_ok os : forall fr s,
    forallb (sound exact) os = true -> binv fr s -> Fr fr ->
    safe (bmain os) s (fun _ s' => binv fr s' /\ keeps fr s s') (fun _ => False).
  Proof.
    induction os as [|o os IH]; intros fr s Hs Hi HF.
    - apply safe_ret. split; [exact Hi|apply keeps_refl].
    - cbn [forallb] in Hs. apply andb_true_iff in Hs. destruct Hs as [H1 H2]. cbn [Blink.bmain].
      apply safe_bind. eapply safe_mono; [apply (caught_ok _ _ (fun s' => binv fr s' /\ keeps fr s s'))| |intros ? []].
      { eapply safe_mono; [apply (bstep_ok o fr s H1 Hi HF)| |].
        - intros [] s' (B & K & _). auto.
        - intros s' (B & K & _). auto. }
      intros [] s1 [B1 K1]. eapply safe_mono; [apply (IH fr s1 H2 B1 HF)| |intros ? []].
      intros [] s2 [B2 K2]. split; [exact B2|eapply keeps_trans; eassumption].
  Qed.

  Lemma bl_new_inv w us fr : own w (us ++ fr) -> binv fr (bl_new w).
  Proof.
    intros Ho. exists us. unfold bl_new. cbn [bl_w bl_tab bl_root bl_log]. split; [exact Ho|].
    split; [reflexivity|]. split; [constructor|reflexivity].
  Qed.
End Main.
