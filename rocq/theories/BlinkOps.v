(** Emplacing values, copying, writing, resetting: the invariant holds. *)
From Coq Require Import Permutation.
From Verif Require Import Base BaseFacts Alloc AllocFacts History HistoryFacts Blink BlinkInv BlinkReset.

(** ** Layouts *)

Lemma ty_ok_facts T : ty_okb T = true ->
  0 <= t_id T < 2 ^ 64 /\ is_pow2 (t_align T) = true /\ 0 < t_align T <= 2 ^ 32 /\
  0 <= t_size T <= 2 ^ 62 /\ t_size T mod t_align T = 0.
Proof.
  unfold ty_okb. intros H. apply andb_true_iff in H. destruct H as [H H6]. apply andb_true_iff in H. destruct H as [H H5].
  apply andb_true_iff in H. destruct H as [H H4]. apply andb_true_iff in H. destruct H as [H H3].
  apply andb_true_iff in H. destruct H as [H H2]. pose proof (pow2_pos (t_align T) H2).
  repeat split; try assumption; lia.
Qed.

Lemma res_ok_facts T r : res_okb T r = true ->
  is_pow2 (r_align r) = true /\ 0 < r_align r <= 2 ^ 32 /\ t_align T <= r_align r /\ r_size r mod r_align r = 0 /\
  0 <= r_off r /\ r_off r mod t_align T = 0 /\ r_off r + t_size T <= r_size r /\ r_size r <= 2 ^ 62.
Proof.
  unfold res_okb. intros H. do 7 (apply andb_true_iff in H; destruct H as [H ?]).
  pose proof (pow2_pos (r_align r) H). repeat split; try assumption; lia.
Qed.

Lemma pow2_max8 a : is_pow2 a = true -> is_pow2 (Z.max 8 a) = true.
Proof. intros H. destruct (Z.max_spec 8 a) as [[_ ->]|[_ ->]]; [exact H|reflexivity]. Qed.

Lemma item_align_facts a : is_pow2 a = true ->
  is_pow2 (item_align a) = true /\ item_align a mod 8 = 0 /\ item_align a mod a = 0 /\ 8 <= item_align a.
Proof.
  intros H. pose proof (pow2_pos a H). unfold item_align. split; [apply pow2_max8; exact H|].
  split; [apply pow2_divides; [reflexivity|apply pow2_max8; exact H|lia]|].
  split; [apply pow2_divides; [exact H|apply pow2_max8; exact H|lia]|]. lia.
Qed.

Lemma item_off_facts a : is_pow2 a = true ->
  24 <= item_off a < 24 + a /\ item_off a mod a = 0.
Proof. intros H. apply round_up_facts. apply pow2_pos. exact H. Qed.

Lemma item_layout_req smax xs xa :
  ISIZE_MAX <= smax -> is_pow2 xa = true -> xa <= 2 ^ 32 -> 0 <= xs <= 2 ^ 62 -> req_ok smax (item_layout xs xa).
Proof.
  intros Hs Hp Ha Hx. apply (req_ok_mono ISIZE_MAX); [exact Hs|].
  destruct (item_align_facts xa Hp) as (A1 & A2 & A3 & A4). pose proof (item_off_facts xa Hp) as [O1 O2].
  pose proof (round_up_facts (item_off xa + xs) (item_align xa) ltac:(lia)) as [R1 R2].
  apply req_ok_intro; cbn [item_layout l_size l_align]; [exact A1|lia|].
  unfold item_align in *. unfold ISIZE_MAX. lia.
Qed.

(** A stored [Result] fits the item allocated for a larger one. *)
Lemma item_room r e :
  is_pow2 (r_align r) = true -> is_pow2 (r_align e) = true -> 0 <= r_size r ->
  r_size r <= r_size e -> r_align r <= r_align e ->
  item_off (r_align r) + r_size r <= l_size (item_layout (r_size e) (r_align e)).
Proof.
  intros Hr He H0 H1 H2. pose proof (pow2_pos _ Hr). pose proof (pow2_pos _ He).
  assert (L : item_off (r_align r) <= item_off (r_align e)).
  { apply round_up_mono; try lia. apply pow2_divides; auto. }
  destruct (item_align_facts (r_align e) He) as (A1 & A2 & A3 & A4).
  pose proof (round_up_facts (item_off (r_align e) + r_size e) (item_align (r_align e)) ltac:(lia)) as [R1 _].
  cbn [item_layout l_size]. lia.
Qed.

Lemma holds_ext2 m m' h vs :
  0 <= h_size h -> (forall x, h_ptr h <= x < h_ptr h + h_cnt h * h_size h -> m' x = m x) ->
  holds m h vs -> holds m' h vs.
Proof.
  intros Hs S [L H]. split; [exact L|]. intros i v Hi. specialize (H i v Hi).
  destruct (Z.eqb_spec (h_size h) 0) as [Ez|Ez]; [exact H|]. rewrite <- H.
  assert (Hl : (i < length vs)%nat) by (apply nth_error_Some; congruence).
  apply load_ext; [lia|]. intros x Hx. apply S. nia.
Qed.

Section Ops.
  Context {W : Type} (amax smax : Z) (A : Allocator W) (own : W -> list ublock -> Prop).
  Hypothesis Hct : contract amax smax A own.
  Hypothesis Hsm : ISIZE_MAX <= smax.
  Variable alloc_reset : M W unit.
  Variable dbg : bool.
  Variable bomb : Z -> Z -> bool.
  Notation bmem := (bmem A).
  Notation binv := (binv A own bomb).
  Notation keeps := (keeps A).

  (** A piece of client code. *)
  Definition body_ok (m : M (bl W) unit) : Prop :=
    forall fr s, binv fr s ->
      safe m s (fun _ s' => binv fr s' /\ keeps fr s s') (fun s' => binv fr s' /\ keeps fr s s').

  (** The log ends with [d]. *)
  Definition ends (s s' : bl W) (d : list bev) : Prop := exists d0, bl_log s' = bl_log s ++ d0 ++ d.

  Lemma ends_keeps s s' d : ends s s' d -> exists d', bl_log s' = bl_log s ++ d'.
  Proof. intros [d0 E]. eauto. Qed.

  Lemma ends_after fr s s1 s2 d : keeps fr s s1 -> bl_log s2 = bl_log s1 ++ d -> ends s s2 d.
  Proof. intros [_ [d0 E]] E2. exists d0. rewrite E2, E, app_assoc. reflexivity. Qed.

  Lemma closure_ok body out fr s :
    body_ok body -> binv fr s ->
    safe (closure body out) s
      (fun o s' => binv fr s' /\ keeps fr s s' /\
         match out with COk v => o = inl (Some v) | CErr e => o = inr e | CPanic => False end)
      (fun s' => binv fr s' /\ keeps fr s s').
  Proof.
    intros Hb Hi. unfold closure. apply safe_bind. eapply safe_mono; [apply Hb; exact Hi| |auto].
    intros [] s' [B K]. destruct out; [apply safe_ret; auto|apply safe_ret; auto|apply safe_panic; auto].
  Qed.

  (** *** Writing a [Result] *)
  Lemma safe_write_result T r u fr s a o (Q : unit -> bl W -> Prop) P :
    ty_okb T = true -> res_okb T r = true -> match o with Some v => value_okb T v = true | None => True end ->
    binv (u :: fr) s -> a mod r_align r = 0 -> u_ptr u <= a -> a + r_size r <= u_ptr u + u_len u ->
    (forall s', binv (u :: fr) s' -> same_control s s' -> same_on fr (bmem s) (bmem s') ->
       (forall v, o = Some v -> if t_size T =? 0 then v = 0 else load (bmem s') (a + r_off r) (t_size T) = Some v) ->
       Q tt s') ->
    safe (write_result A T r a o) s Q P.
  Proof.
    intros HT Hr Ho Hi Ha H1 H2 HQ. unfold write_result. rewrite Ha, Z.eqb_refl.
    destruct (ty_ok_facts T HT) as (T1 & T2 & T3 & T4 & T5).
    destruct (res_ok_facts T r Hr) as (R1 & R2 & R3 & R4 & R5 & R6 & R7 & R8).
    apply safe_bind. eapply (safe_fill amax smax A own Hct bomb u fr); [exact Hi|exact H1|exact H2|].
    intros s1 I1 C1 M1 S1. destruct o as [v|].
    - unfold write_value. eapply (safe_store amax smax A own Hct bomb u fr); [exact I1| |lia|lia|].
      + apply mod_add0; [lia| |exact R6]. apply (mod_trans a (t_align T) (r_align r)); try lia.
        apply pow2_divides; auto.
      + intros s2 I2 C2 M2 S2. apply HQ; [exact I2|eapply same_control_trans; eassumption|eapply same_on_trans; eassumption|].
        intros v' E; inversion E; subst v'. unfold value_okb in Ho.
        destruct (Z.eqb_spec (t_size T) 0) as [Ez|Ez]; [cbn in Ho; lia|]. rewrite M2. apply load_store_same. lia.
    - apply safe_ret. apply HQ; auto. discriminate.
  Qed.

  (** *** Writing a [Drops] *)
  Lemma safe_write_drops u fr s cnt g next (Q : unit -> bl W -> Prop) P :
    binv (u :: fr) s -> u_ptr u mod 8 = 0 -> 24 <= u_len u ->
    (forall s', binv (u :: fr) s' -> same_control s s' -> same_on fr (bmem s) (bmem s') ->
       load (bmem s') (u_ptr u) 8 = Some cnt -> load (bmem s') (u_ptr u + 8) 8 = Some (fn_ptr g) ->
       (forall x, u_ptr u + 24 <= x -> bmem s' x = bmem s x) -> Q tt s') ->
    safe (write_drops A (u_ptr u) cnt g next) s Q P.
  Proof.
    intros Hi Ha H1 HQ. unfold write_drops.
    apply safe_bind. eapply (safe_store amax smax A own Hct bomb u fr); [exact Hi|exact Ha|lia|lia|].
    intros s1 I1 C1 M1 S1.
    apply safe_bind. eapply (safe_store amax smax A own Hct bomb u fr); [exact I1|apply mod_add0; auto; lia|lia|lia|].
    intros s2 I2 C2 M2 S2.
    eapply (safe_store amax smax A own Hct bomb u fr); [exact I2|apply mod_add0; auto; lia|lia|lia|].
    intros s3 I3 C3 M3 S3. apply HQ.
    - exact I3.
    - eapply same_control_trans; [exact C1|]. eapply same_control_trans; eassumption.
    - eapply same_on_trans; [exact S1|]. eapply same_on_trans; eassumption.
    - rewrite M3, load_store_other, M2, load_store_other, M1 by lia. apply load_store_same. lia.
    - rewrite M3, load_store_other, M2 by lia. apply load_store_same. lia.
    - intros x Hx. rewrite M3, store_other, M2, store_other, M1, store_other by lia. reflexivity.
  Qed.

  (** *** [DropList::add], then the reference goes out *)
  Lemma safe_register u fr s h g vs (Q : unit -> bl W -> Prop) P :
    binv (u :: fr) s -> h_blks h = [u] -> h_item h = Some g ->
    agree (bmem s) (Some h) (Some (true, h_id h, vs)) ->
    load (bmem s) (u_ptr u) 8 = Some (h_cnt h) -> load (bmem s) (u_ptr u + 8) 8 = Some (fn_ptr g) ->
    (forall s', binv fr s' -> same_on fr (bmem s) (bmem s') ->
       bl_log s' = bl_log s ++ [ENew true (h_id h) vs] -> Q tt s') ->
    safe (drop_list_add A (u_ptr u) ;;; hand_out h vs) s Q P.
  Proof.
    intros Hi Hb Hg Ha L1 L2 HQ.
    pose proof Ha as (_ & _ & Hh & Hp & Hs).
    pose proof Hp as (P1 & P2 & P3 & P4 & P5 & P6). rewrite Hb, Hg in P6.
    destruct P6 as (P6 & P7 & P8 & P9 & P10 & P11 & P12 & P13 & P14).
    assert (E16 : (u_ptr u + 16) mod 8 = 0) by (apply mod_add0; auto; lia).
    set (m1 := store (bmem s) (u_ptr u + 16) 8 (link (bl_root s))).
    destruct (binv_poke amax smax A own Hct bomb u fr s m1 Hi) as (B1 & B2 & B3 & _).
    { intros x Hx. apply store_other. unfold in_u in Hx. nia. }
    set (s1 := mkBl (al_set_mem A (bl_w s) m1) (bl_root s) (bl_tab s) (bl_log s)) in *.
    assert (Run : (drop_list_add A (u_ptr u) ;;; hand_out h vs) s =
                  ORet tt (mkBl (bl_w s1) (Some (u_ptr u)) (bl_tab s1 ++ [Some h]) (bl_log s1 ++ [ENew (registered h) (h_id h) vs]))).
    { unfold drop_list_add, get_root, set_root, store_at, on_alloc, mstore, hand_out, bind.
      cbn [bl_w bl_root bl_tab bl_log]. rewrite E16. cbn [Z.eqb bl_w bl_root bl_tab bl_log]. reflexivity. }
    unfold safe. rewrite Run. apply HQ.
    - apply (binv_hand_out amax smax A own Hct bomb fr s1 h vs).
      + rewrite Hb. exact B1.
      + rewrite B2. split; [reflexivity|]. split; [reflexivity|]. split; [|split; [exact Hp|]].
        * eapply holds_ext2; [exact P1| |exact Hh]. intros x Hx. apply store_other. lia.
        * intros _. apply Hs. reflexivity.
      + rewrite Hg. exists u. split; [exact Hb|]. split; [reflexivity|]. rewrite B2. unfold m1.
        split; [rewrite load_store_other by lia; exact L1|].
        split; [rewrite load_store_other by lia; exact L2|].
        apply load_store_same. lia.
    - exact B3.
    - cbn [bl_log s1]. unfold registered. rewrite Hg. reflexivity.
  Qed.

  (** *** Emplacing *)

  (** How a call of [emplace] ends. *)
  Definition emplaced (k : entry) (tr : oom) (T : ty) (out : closure_end) (s s' : bl W) : Prop :=
    match out with
    | COk v => ends s s' [ENew (dropping k T) (t_id T) [Some v]]
    | CErr e => ends s s' [EErr e]
    | CPanic => False
    end \/
    (tr = Try /\ bl_log s' = bl_log s ++ EFail :: match out with COk v => [EBack (t_id T) v] | _ => [] end /\
     bl_tab s' = bl_tab s /\ bl_root s' = bl_root s).

  Definition back_of (T : ty) (out : closure_end) : M (bl W) unit :=
    match out with COk v => log (EBack (t_id T) v) | _ => ret tt end.
  Definition lost_of (T : ty) (out : closure_end) : M (bl W) unit :=
    match out with COk v => drop_unwinding bomb T v | _ => ret tt end.

  Definition early (T : ty) (v : Z) : list bev := if t_drop T then [EEarly (t_id T) v] else [].

  Lemma drop_unwinding_ok T v fr s P :
    binv fr s ->
    safe (drop_unwinding bomb T v) s
      (fun _ s' => binv fr s' /\ bmem s' = bmem s /\ bl_tab s' = bl_tab s /\ bl_root s' = bl_root s /\ bl_log s' = bl_log s ++ early T v) P.
  Proof.
    intros Hi. unfold drop_unwinding, early. destruct (t_drop T).
    - apply safe_bind. eapply safe_log; [reflexivity|exact Hi|]. intros s1 B1 M1 T1 R1 L1.
      destruct (bomb (t_id T) v); [apply safe_abort|apply safe_ret; repeat (split; [assumption|]); exact L1].
    - apply safe_ret. rewrite app_nil_r. repeat (split; [assumption || reflexivity|]). reflexivity.
  Qed.

  Lemma alloc_failed_ok k tr T out fr s s0 :
    binv fr s -> same_control s0 s -> same_on fr (bmem s0) (bmem s) ->
    safe (alloc_failed tr (back_of T out) (lost_of T out)) s
      (fun _ s' => binv fr s' /\ keeps fr s0 s' /\ emplaced k tr T out s0 s') (fun s' => binv fr s' /\ keeps fr s0 s').
  Proof.
    intros Hi (C1 & C2 & C3) HS. unfold alloc_failed. destruct tr; [|apply safe_abort|].
    2: { apply safe_bind. apply (safe_mono _ _ (fun _ s' => binv fr s' /\ keeps fr s0 s') _ (fun _ => False) _);
         [|intros _ s1 H1; apply safe_panic; exact H1|intros ? []].
         destruct out as [v| |]; cbn [lost_of];
           [|apply safe_ret; split; [exact Hi|split; [exact HS|exists []; rewrite app_nil_r; exact C3]]..].
         eapply safe_mono; [apply (drop_unwinding_ok T v fr s (fun _ => False) Hi)| |intros ? []].
         intros [] s1 (B1 & M1 & T1 & R1 & L1). split; [exact B1|]. split; [rewrite M1; exact HS|]. rewrite L1, C3. eauto. }
    apply safe_bind. eapply safe_log; [reflexivity|exact Hi|]. intros s1 I1 M1 T1 R1 L1.
    unfold back_of. destruct out as [v|e|].
    - eapply safe_log; [reflexivity|exact I1|]. intros s2 I2 M2 T2 R2 L2.
      assert (E : bl_log s2 = bl_log s0 ++ [EFail; EBack (t_id T) v]) by (rewrite L2, L1, C3, <- app_assoc; reflexivity).
      split; [exact I2|]. split; [split; [rewrite M2, M1; exact HS|eauto]|].
      right. split; [reflexivity|]. split; [exact E|]. split; congruence.
    - apply safe_ret. assert (E : bl_log s1 = bl_log s0 ++ [EFail]) by (rewrite L1, C3; reflexivity).
      split; [exact I1|]. split; [split; [rewrite M1; exact HS|eauto]|].
      right. split; [reflexivity|]. split; [exact E|]. split; congruence.
    - apply safe_ret. assert (E : bl_log s1 = bl_log s0 ++ [EFail]) by (rewrite L1, C3; reflexivity).
      split; [exact I1|]. split; [split; [rewrite M1; exact HS|eauto]|].
      right. split; [reflexivity|]. split; [exact E|]. split; congruence.
  Qed.

  Lemma after_control fr s s1 s2 : keeps fr s s1 -> same_control s1 s2 -> same_on fr (bmem s1) (bmem s2) -> keeps fr s s2.
  Proof. intros K C S. eapply keeps_trans; [exact K|]. apply same_control_keeps; assumption. Qed.

  Lemma emplace_drop_ok k tr T r e body out fr s :
    ty_okb T = true -> res_okb T r = true -> res_okb T e = true ->
    r_size r <= r_size e -> r_align r <= r_align e ->
    match out with COk v => value_okb T v = true | _ => True end ->
    dropping k T = true -> body_ok body -> binv fr s ->
    safe (emplace_drop A k tr T r e (closure body out) (back_of T out) (lost_of T out)) s
      (fun _ s' => binv fr s' /\ keeps fr s s' /\ emplaced k tr T out s s')
      (fun s' => binv fr s' /\ keeps fr s s').
  Proof.
    intros HT Hr He Hre1 Hre2 Hv Hd Hb Hi.
    destruct (ty_ok_facts T HT) as (T1 & T2 & T3 & T4 & T5).
    destruct (res_ok_facts T r Hr) as (R1 & R2 & R3 & R4 & R5 & R6 & R7 & R8).
    destruct (res_ok_facts T e He) as (Q1 & Q2 & Q3 & Q4 & Q5 & Q6 & Q7 & Q8).
    unfold emplace_drop. set (lay := item_layout (r_size e) (r_align e)).
    assert (Hreq : req_ok smax lay) by (apply item_layout_req; auto; lia).
    pose proof (item_room r e R1 Q1 ltac:(lia) Hre1 Hre2) as Room. fold lay in Room.
    destruct (item_align_facts (r_align e) Q1) as (A1 & A2 & A3 & A4).
    destruct (item_off_facts (r_align r) R1) as (O1 & O2).
    apply safe_bind. eapply safe_mono; [apply (safe_allocate amax smax A own Hct bomb fr s lay (fun _ => False) Hi Hreq)| |intros ? []].
    intros [b|] s1 (C1 & S1 & B1).
    2: { apply alloc_failed_ok; assumption. }
    destruct B1 as [G B1]. destruct G as (G1 & G2 & G3 & G4). set (u := mkU (b_ptr b) (b_len b) lay) in *.
    assert (K1 : keeps fr s s1) by (apply same_control_keeps; assumption).
    assert (Gal : b_ptr b mod item_align (r_align e) = 0) by exact G2.
    assert (Pal : b_ptr b mod r_align r = 0).
    { apply (mod_trans _ _ (item_align (r_align e))); try lia. apply (mod_trans _ _ (r_align e)); try lia.
      apply pow2_divides; auto. }
    assert (P8 : b_ptr b mod 8 = 0) by (apply (mod_trans _ _ (item_align (r_align e))); lia).
    apply safe_bind. eapply safe_mono; [apply (closure_ok body out (u :: fr) s1 Hb B1)| |].
    2: { intros s2 [B2 K2]. split; [eapply binv_leak; exact B2|].
         eapply keeps_trans; [exact K1|]. eapply keeps_tail. exact K2. }
    intros o s2 (B2 & K2 & Eo). apply keeps_tail in K2.
    assert (K02 : keeps fr s s2) by (eapply keeps_trans; eassumption).
    apply safe_bind. eapply (safe_write_result T r u fr); [exact HT|exact Hr| |exact B2| | | |].
    { destruct out; subst; cbn; auto. contradiction. }
    { apply mod_add0; [lia|exact Pal|exact O2]. }
    { cbn. lia. }
    { cbn [u u_ptr u_len]. lia. }
    intros s3 B3 C3 S3 V3.
    assert (K3 : keeps fr s s3) by (eapply after_control; eassumption).
    apply safe_bind. eapply (safe_write_drops u fr); [exact B3|exact P8|cbn; lia|].
    intros s4 B4 C4 S4 L1 L2 Hf.
    assert (K4 : keeps fr s s4) by (eapply after_control; eassumption).
    set (g := mkGlue (t_id T) (t_size T) (r_size r) (r_align r) (r_off r)) in *.
    destruct o as [[v|]|err].
    - eapply (safe_register u fr s4 (mkH [u] (b_ptr b + item_off (r_align r) + r_off r) (t_id T) (t_size T) (t_align T) 1 (Some g) (mutable k)) g);
        [exact B4|reflexivity|reflexivity| |exact L1|exact L2|].
      + assert (Hv' : if t_size T =? 0 then v = 0 else load (bmem s4) (b_ptr b + item_off (r_align r) + r_off r) (t_size T) = Some v).
        { specialize (V3 v eq_refl). destruct (Z.eqb_spec (t_size T) 0); [exact V3|].
          rewrite <- V3. apply load_ext; [lia|]. intros x Hx. apply Hf. cbn. lia. }
        cbn [agree registered h_item h_id]. split; [reflexivity|]. split; [reflexivity|]. split; [|split].
        * split; [reflexivity|]. cbn [h_size h_ptr h_cnt]. intros [|i] v' Hn; [|destruct i; discriminate].
          inversion Hn; subst v'. rewrite Z.mul_0_l, Z.add_0_r. exact Hv'.
        * unfold placed. cbn [h_size h_align h_ptr h_cnt h_blks h_item h_id].
          split; [lia|]. split; [lia|]. split; [exact T5|]. split.
          { apply mod_add0; [lia| |exact R6]. apply (mod_trans _ _ (r_align r)); try lia.
            - apply pow2_divides; auto.
            - apply mod_add0; [lia|exact Pal|exact O2]. }
          split; [lia|]. cbn [u u_ptr u_len]. split; [lia|]. split; [lia|].
          split; [unfold glue_ok; cbn; lia|]. split; [reflexivity|]. split; [reflexivity|]. split; [exact P8|].
          split; [lia|]. split; [reflexivity|]. left; lia.
        * intros _. constructor; [discriminate|constructor].
      + intros s5 B5 S5 L5. cbn [h_id] in L5. split; [exact B5|].
        assert (K5 : ends s s5 [ENew true (t_id T) [Some v]]) by (eapply ends_after; eassumption).
        split; [split; [eapply same_on_trans; [apply K4|exact S5]|eapply ends_keeps; exact K5]|].
        left. destruct out as [v'|e'|]; inversion Eo; subst. rewrite Hd. exact K5.
    - destruct out; try discriminate. contradiction.
    - apply safe_bind.
      eapply safe_mono; [apply (safe_deallocate amax smax A own Hct bomb u fr s4 lay (fun _ => False) B4)| |intros ? []].
      { split; [reflexivity|]. cbn [u u_layout u_len lay l_size] in *. lia. }
      intros [] s5 (C5 & S5 & B5).
      assert (K5 : keeps fr s s5) by (eapply after_control; eassumption).
      eapply safe_log; [reflexivity|exact B5|]. intros s6 B6 M6 T6 R6' L6.
      split; [exact B6|].
      assert (K6 : ends s s6 [EErr err]) by (eapply ends_after; eassumption).
      split; [split; [rewrite M6; apply K5|eapply ends_keeps; exact K6]|].
      left. destruct out as [v'|e'|]; inversion Eo; subst. exact K6.
  Qed.

  Lemma emplace_no_drop_ok k tr T r body out fr s :
    ty_okb T = true -> res_okb T r = true ->
    r_size r <= t_size T -> r_align r <= t_align T ->
    match out with COk v => value_okb T v = true | _ => True end ->
    dropping k T = false -> body_ok body -> binv fr s ->
    safe (emplace_no_drop A k tr T r (closure body out) (back_of T out) (lost_of T out)) s
      (fun _ s' => binv fr s' /\ keeps fr s s' /\ emplaced k tr T out s s')
      (fun s' => binv fr s' /\ keeps fr s s').
  Proof.
    intros HT Hr Hre1 Hre2 Hv Hd Hb Hi.
    destruct (ty_ok_facts T HT) as (T1 & T2 & T3 & T4 & T5).
    destruct (res_ok_facts T r Hr) as (R1 & R2 & R3 & R4 & R5 & R6 & R7 & R8).
    unfold emplace_no_drop. set (lay := mkLayout (t_size T) (t_align T)).
    assert (Hreq : req_ok smax lay).
    { apply (req_ok_mono ISIZE_MAX); [exact Hsm|]. apply req_ok_intro; cbn; [exact T2|lia|unfold ISIZE_MAX; lia]. }
    assert (Ea : r_align r = t_align T) by lia. assert (Eo0 : r_off r = 0) by lia.
    apply safe_bind. eapply safe_mono; [apply (safe_allocate amax smax A own Hct bomb fr s lay (fun _ => False) Hi Hreq)| |intros ? []].
    intros [b|] s1 (C1 & S1 & B1).
    2: { apply alloc_failed_ok; assumption. }
    destruct B1 as [G B1]. destruct G as (G1 & G2 & G3 & G4). cbn [lay l_align l_size] in G2, G3.
    set (u := mkU (b_ptr b) (b_len b) lay) in *.
    assert (K1 : keeps fr s s1) by (apply same_control_keeps; assumption).
    apply safe_bind. eapply safe_mono; [apply (closure_ok body out (u :: fr) s1 Hb B1)| |].
    2: { intros s2 [B2 K2]. split; [eapply binv_leak; exact B2|].
         eapply keeps_trans; [exact K1|]. eapply keeps_tail. exact K2. }
    intros o s2 (B2 & K2 & Eo). apply keeps_tail in K2.
    assert (K02 : keeps fr s s2) by (eapply keeps_trans; eassumption).
    apply safe_bind. eapply (safe_write_result T r u fr); [exact HT|exact Hr| |exact B2| | | |].
    { destruct out; subst; cbn; auto. contradiction. }
    { rewrite Ea. exact G2. }
    { cbn. lia. }
    { cbn [u u_ptr u_len]. lia. }
    intros s3 B3 C3 S3 V3.
    assert (K3 : keeps fr s s3) by (eapply after_control; eassumption).
    destruct o as [[v|]|err].
    - eapply (safe_hand_out amax smax A own Hct bomb fr s3 (mkH [u] (b_ptr b + r_off r) (t_id T) (t_size T) (t_align T) 1 None (mutable k)));
        [exact B3|reflexivity| |].
      + cbn [agree registered h_item h_id]. split; [reflexivity|]. split; [reflexivity|]. split; [|split].
        * split; [reflexivity|]. cbn [h_size h_ptr h_cnt]. intros [|i] v' Hn; [|destruct i; discriminate].
          inversion Hn; subst v'. rewrite Z.mul_0_l, Z.add_0_r. apply V3. reflexivity.
        * unfold placed. cbn [h_size h_align h_ptr h_cnt h_blks h_item h_id].
          split; [lia|]. split; [lia|]. split; [exact T5|]. split.
          { rewrite Eo0, Z.add_0_r. exact G2. }
          split; [lia|]. cbn [u u_ptr u_len]. split; [lia|]. split; [lia|exact I].
        * discriminate.
      + intros s5 B5 M5 L5. cbn [h_id] in L5. split; [exact B5|].
        assert (K5 : ends s s5 [ENew false (t_id T) [Some v]]) by (eapply ends_after; eassumption).
        split; [split; [rewrite M5; apply K3|eapply ends_keeps; exact K5]|].
        left. destruct out as [v'|e'|]; inversion Eo; subst. rewrite Hd. exact K5.
    - destruct out; try discriminate. contradiction.
    - apply safe_bind.
      eapply safe_mono; [apply (safe_deallocate amax smax A own Hct bomb u fr s3 lay (fun _ => False) B3)| |intros ? []].
      { split; [reflexivity|]. cbn [u u_layout u_len lay l_size] in *. lia. }
      intros [] s5 (C5 & S5 & B5).
      assert (K5 : keeps fr s s5) by (eapply after_control; eassumption).
      eapply safe_log; [reflexivity|exact B5|]. intros s6 B6 M6 T6 R6' L6.
      split; [exact B6|].
      assert (K6 : ends s s6 [EErr err]) by (eapply ends_after; eassumption).
      split; [split; [rewrite M6; apply K5|eapply ends_keeps; exact K6]|].
      left. destruct out as [v'|e'|]; inversion Eo; subst. exact K6.
  Qed.

  Lemma emplace_ok k tr T r e body out fr s :
    ty_okb T = true -> res_okb T r = true -> res_okb T e = true -> fits_allocated k T r e = true ->
    match out with COk v => value_okb T v = true | _ => True end ->
    body_ok body -> binv fr s ->
    safe (emplace A bomb k tr T r e body out) s
      (fun _ s' => binv fr s' /\ keeps fr s s' /\ emplaced k tr T out s s')
      (fun s' => binv fr s' /\ keeps fr s s').
  Proof.
    intros HT Hr He Hf Hv Hb Hi. unfold emplace, fits_allocated in *. fold (back_of T out) (lost_of T out).
    destruct (negb (t_drop T) || no_drop k) eqn:Ed.
    - apply andb_true_iff in Hf. apply emplace_no_drop_ok; auto; try lia. unfold dropping. rewrite Ed. reflexivity.
    - apply andb_true_iff in Hf. apply emplace_drop_ok; auto; try lia. unfold dropping. rewrite Ed. reflexivity.
  Qed.

  (** *** Copying *)

  (** Elements at [a], [a + size], ... *)
  Definition elems (m : mem) (T : ty) (a : Z) (vs : list Z) : Prop :=
    forall i v, nth_error vs i = Some v ->
      if t_size T =? 0 then v = 0 else load m (a + Z.of_nat i * t_size T) (t_size T) = Some v.

  Lemma elems_cons m T a v vs :
    elems m T a [v] -> elems m T (a + t_size T) vs -> elems m T a (v :: vs).
  Proof.
    intros H1 H2 [|i] w Hi.
    - inversion Hi; subst. exact (H1 O w eq_refl).
    - specialize (H2 i w Hi). destruct (t_size T =? 0); [exact H2|]. rewrite <- H2. f_equal. lia.
  Qed.

  Lemma elems_snoc m T a vs v :
    elems m T a vs -> elems m T (a + Z.of_nat (length vs) * t_size T) [v] -> elems m T a (vs ++ [v]).
  Proof.
    intros H1 H2 i w Hi. destruct (Nat.lt_trichotomy i (length vs)) as [L|[L|L]].
    - rewrite nth_error_app1 in Hi by exact L. apply (H1 i w Hi).
    - subst i. rewrite nth_error_app2, Nat.sub_diag in Hi by lia. specialize (H2 O w Hi).
      destruct (t_size T =? 0); [exact H2|]. rewrite <- H2. f_equal. lia.
    - rewrite nth_error_app2 in Hi by lia. destruct (i - length vs)%nat as [|[|]] eqn:E; [lia|discriminate|discriminate].
  Qed.

  Lemma elems_ext m m' T a vs :
    0 <= t_size T -> (forall x, a <= x < a + Z.of_nat (length vs) * t_size T -> m' x = m x) ->
    elems m T a vs -> elems m' T a vs.
  Proof.
    intros H0 S H i v Hi. specialize (H i v Hi). destruct (Z.eqb_spec (t_size T) 0); [exact H|]. rewrite <- H.
    assert ((i < length vs)%nat) by (apply nth_error_Some; congruence).
    apply load_ext; [lia|]. intros x Hx. apply S. nia.
  Qed.

  Lemma safe_write_value u fr s T a v (Q : unit -> bl W -> Prop) P :
    ty_okb T = true -> value_okb T v = true -> binv (u :: fr) s ->
    a mod t_align T = 0 -> u_ptr u <= a -> a + t_size T <= u_ptr u + u_len u ->
    (forall s', binv (u :: fr) s' -> same_control s s' -> same_on fr (bmem s) (bmem s') ->
       elems (bmem s') T a [v] -> (forall x, x < a \/ a + t_size T <= x -> bmem s' x = bmem s x) -> Q tt s') ->
    safe (write_value A T a v) s Q P.
  Proof.
    intros HT Hv Hi Ha H1 H2 HQ. unfold write_value.
    destruct (ty_ok_facts T HT) as (T1 & T2 & T3 & T4 & T5).
    eapply (safe_store amax smax A own Hct bomb u fr); [exact Hi|exact Ha|exact H1|exact H2|].
    intros s' I' C' M' S'. apply HQ; auto.
    - intros [|i] w Hw; [|destruct i; discriminate]. inversion Hw; subst w. unfold value_okb in Hv.
      destruct (Z.eqb_spec (t_size T) 0); [cbn in Hv; lia|]. rewrite M', Z.mul_0_l, Z.add_0_r. apply load_store_same. lia.
    - intros x Hx. rewrite M'. apply store_other. exact Hx.
  Qed.

  Lemma write_all_ok u fr T vs : forall s a (Q : unit -> bl W -> Prop) P,
    ty_okb T = true -> forallb (value_okb T) vs = true -> binv (u :: fr) s ->
    a mod t_align T = 0 -> u_ptr u <= a -> a + Z.of_nat (length vs) * t_size T <= u_ptr u + u_len u ->
    (forall s', binv (u :: fr) s' -> same_control s s' -> same_on fr (bmem s) (bmem s') ->
       elems (bmem s') T a vs -> (forall x, x < a -> bmem s' x = bmem s x) -> Q tt s') ->
    safe (write_all A T a vs) s Q P.
  Proof.
    induction vs as [|v vs IH]; intros s a Q P HT Hv Hi Ha H1 H2 HQ; cbn [write_all].
    - apply safe_ret. apply HQ; auto.
      + apply same_control_refl.
      + apply same_on_refl.
      + intros [|i] w Hw; discriminate.
    - cbn [forallb] in Hv. apply andb_true_iff in Hv. destruct Hv as [Hv1 Hv2].
      destruct (ty_ok_facts T HT) as (T1 & T2 & T3 & T4 & T5). cbn [length] in H2.
      apply safe_bind. eapply (safe_write_value u fr); [exact HT|exact Hv1|exact Hi|exact Ha|exact H1|nia|].
      intros s1 I1 C1 S1 V1 F1.
      apply IH; [exact HT|exact Hv2|exact I1|apply mod_add0; auto; lia|lia|nia|].
      intros s2 I2 C2 S2 V2 F2. apply HQ.
      + exact I2.
      + eapply same_control_trans; eassumption.
      + eapply same_on_trans; eassumption.
      + apply elems_cons; [|exact V2]. eapply elems_ext; [lia| |exact V1]. cbn [length]. intros x Hx. apply F2. lia.
      + intros x Hx. rewrite F2, F1; [reflexivity|lia|lia].
  Qed.

  Lemma holds_elems m u a T n vs g mt :
    Z.of_nat (length vs) = n -> elems m T a vs ->
    holds m (mkH u a (t_id T) (t_size T) (t_align T) n g mt) (map Some vs).
  Proof.
    intros L H. split; [rewrite map_length; exact L|]. cbn [h_size h_ptr]. intros i v Hi.
    rewrite nth_error_map in Hi. destruct (nth_error vs i) eqn:E; [|discriminate]. inversion Hi; subst. exact (H i v E).
  Qed.

  (** How a call of [copy_slice] or [uninit] ends. *)
  Definition copied (tr : oom) (id : Z) (vs : list (option Z)) (s s' : bl W) : Prop :=
    bl_log s' = bl_log s ++ [ENew false id vs] \/
    (tr = Try /\ bl_log s' = bl_log s ++ [EFail] /\ bl_tab s' = bl_tab s /\ bl_root s' = bl_root s).

  (** How it panics: out of memory, nothing happened. *)
  Definition uncopied (tr : oom) (s s' : bl W) : Prop :=
    tr = Unwinds /\ bl_log s' = bl_log s /\ bl_tab s' = bl_tab s /\ bl_root s' = bl_root s.

  Lemma failed_plain tr id vs fr s s0 :
    binv fr s -> same_control s0 s -> same_on fr (bmem s0) (bmem s) ->
    safe (alloc_failed tr (ret tt) (ret tt)) s (fun _ s' => binv fr s' /\ keeps fr s0 s' /\ copied tr id vs s0 s')
      (fun s' => binv fr s' /\ keeps fr s0 s' /\ uncopied tr s0 s').
  Proof.
    intros Hi (C1 & C2 & C3) HS. unfold alloc_failed. destruct tr; [|apply safe_abort|].
    2: { apply safe_bind, safe_ret, safe_panic. split; [exact Hi|]. split; [split; [exact HS|exists []; rewrite app_nil_r; exact C3]|].
         split; [reflexivity|]. split; [exact C3|]. split; congruence. }
    apply safe_bind. eapply safe_log; [reflexivity|exact Hi|]. intros s1 I1 M1 T1 R1 L1. apply safe_ret.
    assert (E : bl_log s1 = bl_log s0 ++ [EFail]) by (rewrite L1, C3; reflexivity).
    split; [exact I1|]. split; [split; [rewrite M1; exact HS|eauto]|].
    right. split; [reflexivity|]. split; [exact E|]. split; congruence.
  Qed.

  Lemma copy_slice_ok tr T vs fr s :
    ty_okb T = true -> forallb (value_okb T) vs = true -> Z.of_nat (length vs) * t_size T + t_align T <= 2 ^ 63 ->
    binv fr s ->
    safe (copy_slice A tr T vs) s
      (fun _ s' => binv fr s' /\ keeps fr s s' /\ copied tr (t_id T) (map Some vs) s s') (fun s' => binv fr s' /\ keeps fr s s' /\ uncopied tr s s').
  Proof.
    intros HT Hv Hl Hi. destruct (ty_ok_facts T HT) as (T1 & T2 & T3 & T4 & T5).
    unfold copy_slice. set (lay := mkLayout _ _).
    assert (Hreq : req_ok smax lay).
    { apply (req_ok_mono ISIZE_MAX); [exact Hsm|]. apply req_ok_intro; cbn [lay l_size l_align]; [exact T2|nia|unfold ISIZE_MAX; lia]. }
    apply safe_bind. eapply safe_mono; [apply (safe_allocate amax smax A own Hct bomb fr s lay (fun _ => False) Hi Hreq)| |intros ? []].
    intros [b|] s1 (C1 & S1 & B1).
    2: { apply failed_plain; assumption. }
    destruct B1 as [(G1 & G2 & G3 & G4) B1]. cbn [lay l_align l_size] in G2, G3.
    set (u := mkU (b_ptr b) (b_len b) lay) in *.
    apply safe_bind. eapply (write_all_ok u fr); [exact HT|exact Hv|exact B1|exact G2|cbn; lia|cbn [u u_ptr u_len]; lia|].
    intros s2 B2 C2 S2 V2 _.
    eapply (safe_hand_out amax smax A own Hct bomb fr s2); [exact B2|reflexivity| |].
    - cbn [agree registered h_item h_id]. split; [reflexivity|]. split; [reflexivity|]. split; [|split].
      + apply holds_elems; [reflexivity|exact V2].
      + unfold placed. cbn [h_size h_align h_ptr h_cnt h_blks h_item h_id u u_ptr u_len].
        repeat (split; [assumption || lia|]). auto.
      + discriminate.
    - intros s3 B3 M3 L3. cbn [h_id] in L3. split; [exact B3|].
      assert (E : bl_log s3 = bl_log s ++ [ENew false (t_id T) (map Some vs)]).
      { rewrite L3. destruct C2 as (_ & _ & ->), C1 as (_ & _ & ->). reflexivity. }
      split; [|left; exact E]. split; [rewrite M3; eapply same_on_trans; eassumption|eauto].
  Qed.

  Lemma uninit_ok tr T fr s :
    ty_okb T = true -> binv fr s ->
    safe (uninit A tr T) s (fun _ s' => binv fr s' /\ keeps fr s s' /\ copied tr (t_id T) [None] s s')
      (fun s' => binv fr s' /\ keeps fr s s' /\ uncopied tr s s').
  Proof.
    intros HT Hi. destruct (ty_ok_facts T HT) as (T1 & T2 & T3 & T4 & T5).
    unfold uninit. set (lay := mkLayout _ _).
    assert (Hreq : req_ok smax lay).
    { apply (req_ok_mono ISIZE_MAX); [exact Hsm|]. apply req_ok_intro; cbn [lay l_size l_align]; [exact T2|lia|unfold ISIZE_MAX; lia]. }
    apply safe_bind. eapply safe_mono; [apply (safe_allocate amax smax A own Hct bomb fr s lay (fun _ => False) Hi Hreq)| |intros ? []].
    intros [b|] s1 (C1 & S1 & B1).
    2: { apply failed_plain; assumption. }
    destruct B1 as [(G1 & G2 & G3 & G4) B1]. cbn [lay l_align l_size] in G2, G3.
    eapply (safe_hand_out amax smax A own Hct bomb fr s1); [exact B1|reflexivity| |].
    - cbn [agree registered h_item h_id]. split; [reflexivity|]. split; [reflexivity|]. split; [|split].
      + split; [reflexivity|]. intros [|[|]] v Hv; discriminate.
      + unfold placed. cbn [h_size h_align h_ptr h_cnt h_blks h_item h_id u_ptr u_len].
        repeat (split; [assumption || lia|]). auto.
      + discriminate.
    - intros s3 B3 M3 L3. cbn [h_id] in L3. split; [exact B3|].
      assert (E : bl_log s3 = bl_log s ++ [ENew false (t_id T) [None]]).
      { rewrite L3. destruct C1 as (_ & _ & ->). reflexivity. }
      split; [|left; exact E]. split; [rewrite M3; exact S1|eauto].
  Qed.

  (** *** Writing through a reference *)

  Lemma get_state t e h x m :
    Forall2 (agree m) t e -> get h t = Some x ->
    exists t1 t2 e1 e2 y, t = t1 ++ Some x :: t2 /\ e = e1 ++ Some y :: e2 /\
      length t1 = h /\ length e1 = h /\ agree m (Some x) (Some y) /\
      Forall2 (agree m) t1 e1 /\ Forall2 (agree m) t2 e2.
  Proof.
    intros H G. destruct (get_split _ _ _ G) as (t1 & t2 & -> & L).
    apply Forall2_app_inv_l in H. destruct H as (e1 & e2' & H1 & H2 & ->).
    inversion H2 as [|? y ? e2 Hy H2']; subst. destruct y as [y|]; [|destruct Hy].
    exists t1, t2, e1, e2, y. split; [reflexivity|]. split; [reflexivity|]. split; [reflexivity|].
    split; [|auto]. clear - H1. induction H1; cbn; congruence.
  Qed.

  Lemma set_nth_length {X} i (x : X) l : length (set_nth i x l) = length l.
  Proof. revert i. induction l as [|y l IH]; intros [|i]; cbn; auto. Qed.

  Lemma nth_set_nth {X} i j (x : X) l :
    nth_error (set_nth i x l) j = if Nat.eqb i j then (if Nat.ltb j (length l) then Some x else None) else nth_error l j.
  Proof.
    revert i j. induction l as [|y l IH]; intros [|i] [|j]; cbn [set_nth nth_error length Nat.eqb]; auto.
    - destruct (Nat.eqb i j); reflexivity.
    - rewrite IH. destruct (Nat.eqb i j); [|reflexivity]. reflexivity.
  Qed.

  Lemma set_nth_Forall {X} (P : X -> Prop) i x l : P x -> Forall P l -> Forall P (set_nth i x l).
  Proof.
    intros Hx H. revert i. induction H as [|y l Hy H IH]; intros [|i]; cbn; auto.
  Qed.

  Lemma holds_set m h vs i v :
    holds m h vs -> 0 <= h_size h -> Z.of_nat i < h_cnt h -> (h_size h = 0 -> v = 0) ->
    holds (if h_size h =? 0 then m else store m (h_ptr h + Z.of_nat i * h_size h) (h_size h) v) h (set_nth i (Some v) vs).
  Proof.
    intros [L H] H0 Hi Hv. split; [rewrite set_nth_length; exact L|]. intros j w Hj. rewrite nth_set_nth in Hj.
    destruct (Nat.eqb_spec i j) as [->|Ne].
    - destruct (Nat.ltb j (length vs)); [|discriminate]. inversion Hj; subst w.
      destruct (Z.eqb_spec (h_size h) 0) as [Ez|Ez]; [auto|]. apply load_store_same. lia.
    - specialize (H j w Hj). destruct (Z.eqb_spec (h_size h) 0) as [Ez|Ez]; [exact H|].
      rewrite load_store_other; [exact H|lia|]. nia.
  Qed.

  Lemma set_nth_same {X} (l1 l2 : list X) x : set_nth (length l1) x (l1 ++ x :: l2) = l1 ++ x :: l2.
  Proof. apply set_nth_split. Qed.

  Lemma set_elem_ok h i v fr s P :
    binv fr s ->
    safe (set_elem A h i v) s
      (fun _ s' => binv fr s' /\ keeps fr s s' /\
         (bl_log s' = bl_log s \/ bl_log s' = bl_log s ++ [ESet h i v])) P.
  Proof.
    intros Hi. unfold safe, set_elem. destruct (get h (bl_tab s)) as [x|] eqn:Gx.
    2: { split; [exact Hi|]. split; [apply keeps_refl|auto]. }
    destruct (h_mut x && (Z.of_nat i <? h_cnt x) && (negb (h_size x =? 0) || (v =? 0))) eqn:Ec.
    2: { split; [exact Hi|]. split; [apply keeps_refl|auto]. }
    apply andb_true_iff in Ec. destruct Ec as [Ec Ez]. apply andb_true_iff in Ec. destruct Ec as [_ Ec].
    pose proof Hi as (junk & Ho & H1 & H2 & H3).
    destruct (get_state _ _ _ _ _ H2 Gx) as (t1 & t2 & e1 & e2 & [[reg id] vs] & Et & Ee & L1 & L2 & Hy & F1 & F2).
    pose proof Hy as (E1 & E2 & Hh & Hp & Hf).
    pose proof Hp as (P1 & P2 & P3 & P4 & P5 & P6).
    set (m' := if h_size x =? 0 then bmem s else store (bmem s) (h_ptr x + Z.of_nat i * h_size x) (h_size x) v).
    set (w' := if h_size x =? 0 then bl_w s else al_set_mem A (bl_w s) m').
    assert (Ew : al_mem A w' = m').
    { unfold w', m'. destruct (h_size x =? 0); [reflexivity|apply (ct_mem _ _ _ _ Hct)]. }
    assert (Run : ((if h_size x =? 0 then ret tt else store_at A (h_ptr x + Z.of_nat i * h_size x) (h_size x) (h_align x) v) ;;;
                   log (ESet h i v)) s = ORet tt (mkBl w' (bl_root s) (bl_tab s) (bl_log s ++ [ESet h i v]))).
    { unfold w', m'. destruct (h_size x =? 0); [reflexivity|].
      unfold bind, store_at, on_alloc, mstore, log.
      assert (Al : (h_ptr x + Z.of_nat i * h_size x) mod h_align x = 0).
      { apply mod_add0; [lia|exact P4|]. apply mod_mul0; [lia|exact P3]. }
      rewrite Al. reflexivity. }
    rewrite Run. clear Run.
    (* what the write leaves alone *)
    assert (Dj : forall u, In u (junk ++ fr) -> forall y, in_u y u -> m' y = bmem s y).
    { intros u Hu y Hyu. unfold m'. destruct (Z.eqb_spec (h_size x) 0); [reflexivity|]. apply store_other.
      destruct (h_blks x) as [|b [|]] eqn:Eb; [lia| |contradiction].
      destruct (ct_wf _ _ _ _ Hct _ _ Ho) as [_ Hd]. apply pairwise_app in Hd. destruct Hd as (_ & _ & Hd).
      assert (Hb : In b (blocks (bl_tab s))).
      { unfold blocks. apply in_flat_map. exists x. rewrite Eb. split; [|left; reflexivity].
        apply live_in. exists h. exact Gx. }
      specialize (Hd b u Hb Hu y). unfold in_u in *. nia. }
    assert (Dt : forall z, In z (live t1) \/ In z (live t2) -> forall u, In u (h_blks z) -> forall y, in_u y u -> m' y = bmem s y).
    { intros z Hz u Hu y Hyu. unfold m'. destruct (Z.eqb_spec (h_size x) 0); [reflexivity|]. apply store_other.
      destruct (h_blks x) as [|b [|]] eqn:Eb; [lia| |contradiction].
      assert (Ob : own (bl_w s) (b :: (flat_map h_blks (live t1) ++ flat_map h_blks (live t2)) ++ junk ++ fr)).
      { apply (ct_perm _ _ _ _ Hct _ _ _ Ho). unfold blocks. rewrite Et, live_app. cbn [live]. rewrite flat_map_app. cbn [flat_map].
        rewrite Eb. rewrite <- !app_assoc. cbn [app]. symmetry. apply Permutation_middle. }
      destruct (ct_wf _ _ _ _ Hct _ _ Ob) as [_ [Hd _]]. rewrite Forall_forall in Hd.
      assert (Hin : In u ((flat_map h_blks (live t1) ++ flat_map h_blks (live t2)) ++ junk ++ fr)).
      { apply in_or_app. left. apply in_or_app. destruct Hz as [Hz|Hz]; [left|right]; apply in_flat_map; exists z; auto. }
      specialize (Hd u Hin y). unfold in_u in *. nia. }
    assert (Hm : binv fr (mkBl w' (bl_root s) (bl_tab s) (bl_log s ++ [ESet h i v]))).
    { exists junk. unfold state_of, BlinkInv.bmem; cbn [bl_w bl_root bl_tab bl_log]. rewrite Ew.
      split; [|split; [|split]].
      - unfold w'. destruct (h_size x =? 0) eqn:E0; [exact Ho|]. apply (ct_write _ _ _ _ Hct); [exact Ho|].
        intros y Hyn. unfold m'. apply store_other.
        destruct (h_blks x) as [|b [|]] eqn:Eb; [lia| |contradiction].
        assert (Hb : In b (blocks (bl_tab s) ++ junk ++ fr)).
        { apply in_or_app. left. unfold blocks. apply in_flat_map. exists x. rewrite Eb. split; [|left; reflexivity].
          apply live_in. exists h. exact Gx. }
        specialize (Hyn b Hb). unfold in_u in Hyn. nia.
      - (* the drop list *)
        eapply chain_ext; [|exact H1]. intros p c g y Hin Hy'. apply in_rev in Hin.
        unfold items in Hin. apply in_flat_map in Hin. destruct Hin as (z & Hz & Hin).
        assert (Hzx : z = x \/ In z (live t1) \/ In z (live t2)).
        { rewrite Et, live_app in Hz. apply in_app_or in Hz. destruct Hz as [Hz|Hz]; [auto|].
          cbn [live] in Hz. destruct Hz as [Hz|Hz]; auto. }
        destruct Hzx as [->|Hzx].
        + unfold item_of in Hin. destruct (h_item x) as [g'|]; [|contradiction].
          destruct (h_blks x) as [|b [|]] eqn:Eb; [contradiction| |contradiction].
          destruct Hin as [E|[]]. inversion E; subst p c g'. unfold m'. destruct (h_size x =? 0); [reflexivity|].
          apply store_other. nia.
        + assert (Hz' : exists u, h_blks z = [u] /\ u_ptr u = p /\ 24 <= u_len u).
          { assert (Hpl : placed z).
            { destruct Hzx as [Hz1|Hz1]; apply live_in in Hz1; destruct Hz1 as [hh Hz1].
              - destruct (get_state _ _ _ _ _ F1 Hz1) as (? & ? & ? & ? & [[? ?] ?] & _ & _ & _ & _ & (_ & _ & _ & Pz & _) & _). exact Pz.
              - destruct (get_state _ _ _ _ _ F2 Hz1) as (? & ? & ? & ? & [[? ?] ?] & _ & _ & _ & _ & (_ & _ & _ & Pz & _) & _). exact Pz. }
            destruct Hpl as (Z1 & Z2 & Z3 & Z4 & Z5 & Z6).
            unfold item_of in Hin. destruct (h_item z) as [g'|]; [|contradiction].
            destruct (h_blks z) as [|b [|]] eqn:Eb; [contradiction| |contradiction].
            destruct Hin as [E|[]]. inversion E; subst. exists b. split; [reflexivity|]. split; [reflexivity|]. nia. }
          destruct Hz' as (u & Eu & Ep & Hlen). apply (Dt z Hzx u); [rewrite Eu; left; reflexivity|]. unfold in_u. lia.
      - rewrite especs_app. cbn [fst especs espec]. fold (state_of bomb s). rewrite Ee in *.
        clear L1. subst h. pose proof (get_mid e1 e2 (reg, id, vs)) as Gm. unfold sval in *. rewrite Gm, set_nth_split, Et.
        apply Forall2_app; [|constructor].
        + eapply agrees_ext; [|exact F1]. intros u y Hu Hyu. unfold blocks in Hu. apply in_flat_map in Hu.
          destruct Hu as (z & Hz & Hu). apply (Dt z (or_introl Hz) u Hu y Hyu).
        + cbn [agree entry_set]. split; [exact E1|]. split; [exact E2|]. split; [|split; [exact Hp|]].
          * apply holds_set; [exact Hh|exact P1|lia|]. intros E0. rewrite E0 in Ez. cbn in Ez. lia.
          * intros Hr. apply set_nth_Forall; [discriminate|apply Hf; exact Hr].
        + eapply agrees_ext; [|exact F2]. intros u y Hu Hyu. unfold blocks in Hu. apply in_flat_map in Hu.
          destruct Hu as (z & Hz & Hu). apply (Dt z (or_intror Hz) u Hu y Hyu).
      - rewrite especs_app, drops_of_app. cbn [snd especs espec]. cbn. rewrite !app_nil_r. exact H3. }
    split; [exact Hm|]. split; [|right; reflexivity].
    split; [|exists [ESet h i v]; reflexivity]. unfold BlinkInv.bmem at 2; cbn [bl_w]. rewrite Ew.
    intros u y Hu Hyu. apply (Dj u); [apply in_or_app; right; exact Hu|exact Hyu].
  Qed.

  (** *** Resetting *)

  Variable Fr : list ublock -> Prop.
  Hypothesis Hreset : forall w us fr, own w (us ++ fr) -> Fr fr ->
    wp alloc_reset w (fun _ w' => exists us', own w' (us' ++ fr) /\ same_on fr (al_mem A w) (al_mem A w')).

  Lemma after_reset_keeps fr s : keeps fr s (after_reset bomb s).
  Proof. split; [apply same_on_refl|]. exists (reset_log bomb s). reflexivity. Qed.

  Lemma drop_all_ok fr s :
    binv fr s ->
    safe (blink_drop_all A bomb) s
      (fun _ s' => binv fr s' /\ keeps fr s s' /\ bl_log s' = bl_log s ++ reset_log bomb s)
      (fun s' => binv fr s' /\ keeps fr s s' /\ bl_log s' = bl_log s ++ reset_log bomb s).
  Proof.
    intros Hi. eapply safe_mono; [apply (drop_list_reset_ok A own bomb fr s Hi)| |].
    - intros [] s' ->. split; [apply after_reset_inv; exact Hi|]; split; [apply after_reset_keeps|reflexivity].
    - intros s' ->. split; [apply after_reset_inv; exact Hi|]; split; [apply after_reset_keeps|reflexivity].
  Qed.

  Lemma reset_all_ok fr s :
    binv fr s -> Fr fr ->
    safe (blink_reset_all A alloc_reset bomb) s
      (fun _ s' => binv fr s' /\ keeps fr s s' /\ bl_log s' = bl_log s ++ reset_log bomb s)
      (fun s' => binv fr s' /\ keeps fr s s' /\ bl_log s' = bl_log s ++ reset_log bomb s).
  Proof.
    intros Hi Hf. unfold blink_reset_all. apply safe_bind.
    eapply safe_mono; [apply (drop_list_reset_ok A own bomb fr s Hi)| |].
    2: { intros s' ->. split; [apply after_reset_inv; exact Hi|]. split; [apply after_reset_keeps|reflexivity]. }
    intros [] s' ->. pose proof (after_reset_inv A own bomb fr s Hi) as (junk & Ho & H1 & H2 & H3).
    apply safe_on_alloc. rewrite app_assoc in Ho.
    eapply wp_mono; [apply (Hreset _ _ _ Ho Hf)|]. intros [] w' (us' & Ho' & S).
    cbn [after_reset bl_tab bl_root bl_log] in *. split.
    - exists us'. unfold state_of, BlinkInv.bmem in *; cbn [bl_w bl_root bl_tab bl_log] in *.
      rewrite blocks_none, items_none in *. cbn [app rev chain]. split; [exact Ho'|].
      split; [reflexivity|]. split; [|exact H3].
      eapply agrees_ext; [|exact H2]. rewrite blocks_none. intros u x [].
    - split; [|reflexivity]. split; [exact S|]. exists (reset_log bomb s). reflexivity.
  Qed.
End Ops.
