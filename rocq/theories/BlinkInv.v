(** The invariant of [Blink], and how elementary steps keep it. *)
From Coq Require Import Permutation.
From Verif Require Import Base BaseFacts Alloc AllocFacts History HistoryFacts Blink.

(** ** Numbers *)

Lemma round_up_facts n a : 0 < a -> n <= round_up n a < n + a /\ round_up n a mod a = 0.
Proof.
  intros Ha. unfold round_up. split; [|apply Z_mod_mult].
  pose proof (Z_div_mod_eq_full (n + a - 1) a). pose proof (Z.mod_pos_bound (n + a - 1) a Ha). lia.
Qed.

Lemma round_up_mono n n' a a' :
  0 < a -> 0 < a' -> a' mod a = 0 -> n <= n' -> round_up n a <= round_up n' a'.
Proof.
  intros Ha Ha' Hd Hn. pose proof (round_up_facts n a Ha) as [R1 R2].
  pose proof (round_up_facts n' a' Ha') as [R3 R4].
  (* the larger one is a multiple of a not below n *)
  assert (D : round_up n' a' mod a = 0).
  { apply Z.mod_divide in R4; [|lia]. apply Z.mod_divide in Hd; [|lia].
    apply Z.mod_divide; [lia|]. eapply Z.divide_trans; eassumption. }
  destruct (Z.le_gt_cases (round_up n a) (round_up n' a')) as [L|L]; [exact L|exfalso].
  apply Z.mod_divide in D; [|lia]. apply Z.mod_divide in R2; [|lia].
  destruct D as [q Eq], R2 as [q' Eq']. rewrite Eq, Eq' in *.
  assert (q' >= q + 1) by nia. nia.
Qed.

Lemma pow2_divides a b : is_pow2 a = true -> is_pow2 b = true -> a <= b -> b mod a = 0.
Proof.
  intros Ha Hb L. apply is_pow2_spec in Ha, Hb. destruct Ha as (i & Hi & ->), Hb as (j & Hj & ->).
  assert (i <= j) by (apply (pow2_le_exp i j); lia).
  replace j with ((j - i) + i) by lia. rewrite Z.pow_add_r by lia. apply Z_mod_mult.
Qed.

Lemma mod_trans p a b : 0 < a -> 0 < b -> b mod a = 0 -> p mod b = 0 -> p mod a = 0.
Proof.
  intros Ha Hb H1 H2. apply Z.mod_divide in H1; [|lia]. apply Z.mod_divide in H2; [|lia].
  apply Z.mod_divide; [lia|]. eapply Z.divide_trans; eassumption.
Qed.

Lemma mod_add0 x y a : 0 < a -> x mod a = 0 -> y mod a = 0 -> (x + y) mod a = 0.
Proof. intros Ha H1 H2. rewrite Z.add_mod by lia. rewrite H1, H2. apply Z.mod_0_l. lia. Qed.

Lemma mod_mul0 x y a : 0 < a -> y mod a = 0 -> (x * y) mod a = 0.
Proof.
  intros Ha H. apply Z.mod_divide in H; [|lia]. apply Z.mod_divide; [lia|].
  apply Z.divide_mul_r. exact H.
Qed.

Lemma pow2_pos a : is_pow2 a = true -> 0 < a.
Proof. unfold is_pow2. intros H. apply andb_true_iff in H. lia. Qed.

(** ** Function pointers *)

Definition glue_ok (g : glue) : Prop :=
  0 <= g_id g < 2 ^ 64 /\ 0 <= g_tsize g < 2 ^ 64 /\ 0 <= g_xsize g < 2 ^ 64 /\ 0 <= g_xalign g < 2 ^ 64.

Lemma base_step x y : 0 <= x < 2 ^ 64 -> (x + 2 ^ 64 * y) mod 2 ^ 64 = x /\ (x + 2 ^ 64 * y) / 2 ^ 64 = y.
Proof.
  intros H. rewrite (Z.mul_comm (2 ^ 64) y). split.
  - rewrite Z_mod_plus_full. apply Z.mod_small. exact H.
  - rewrite Z_div_plus_full by lia. rewrite Z.div_small by exact H. lia.
Qed.

Lemma fn_of_ptr g : glue_ok g -> fn_of (fn_ptr g) = g.
Proof.
  intros (H1 & H2 & H3 & H4). unfold fn_of.
  replace (2 ^ 256) with (2 ^ 64 * 2 ^ 192) by reflexivity.
  replace (2 ^ 192) with (2 ^ 64 * 2 ^ 128) by reflexivity.
  replace (2 ^ 128) with (2 ^ 64 * 2 ^ 64) by reflexivity.
  rewrite <- !Z.div_div by lia.
  unfold fn_ptr.
  destruct (base_step (g_id g) (g_tsize g + 2 ^ 64 * (g_xsize g + 2 ^ 64 * (g_xalign g + 2 ^ 64 * g_xoff g))) H1) as [-> ->].
  destruct (base_step (g_tsize g) (g_xsize g + 2 ^ 64 * (g_xalign g + 2 ^ 64 * g_xoff g)) H2) as [-> ->].
  destruct (base_step (g_xsize g) (g_xalign g + 2 ^ 64 * g_xoff g) H3) as [-> ->].
  destruct (base_step (g_xalign g) (g_xoff g) H4) as [-> ->].
  destruct g; reflexivity.
Qed.

(** ** The expected state *)

Section Spec.
  Variable bomb : Z -> Z -> bool.

  Lemma especs_app s es es' :
    especs bomb s (es ++ es') =
    (fst (especs bomb (fst (especs bomb s es)) es'),
     snd (especs bomb s es) ++ snd (especs bomb (fst (especs bomb s es)) es')).
  Proof.
    revert s. induction es as [|e es IH]; intros s; cbn [especs app].
    - cbn. destruct (especs bomb s es'); reflexivity.
    - destruct (espec bomb s e) as [s1 d1]. rewrite IH. destruct (especs bomb s1 es) as [s2 d2]. cbn [fst snd].
      rewrite app_assoc. reflexivity.
  Qed.

  Lemma drops_of_app es es' : drops_of (es ++ es') = drops_of es ++ drops_of es'.
  Proof. apply flat_map_app. Qed.

  (** Events that concern neither the contents nor the destructors. *)
  Definition quiet_event (e : bev) : bool :=
    match e with EYield _ _ | EBack _ _ | EEarly _ _ | EErr _ | EFail => true | _ => false end.

  Lemma especs_quiet s es : forallb quiet_event es = true -> especs bomb s es = (s, []) /\ drops_of es = [].
  Proof.
    induction es as [|e es IH]; [split; reflexivity|]. cbn [forallb]. intros H. apply andb_true_iff in H.
    destruct H as [H1 H2]. destruct (IH H2) as [E1 E2]. split.
    - destruct e; cbn in *; try discriminate; rewrite E1; reflexivity.
    - destruct e; cbn in *; try discriminate; exact E2.
  Qed.
End Spec.

(** ** Safe runs *)

Definition safe {W B} (m : M W B) (w : W) (Q : B -> W -> Prop) (P : W -> Prop) : Prop :=
  match m w with
  | ORet b w' => Q b w'
  | OPanic w' => P w'
  | OAbort => True
  | OUB => False
  end.

Lemma safe_ret {W B} (b : B) (w : W) (Q : B -> W -> Prop) P : Q b w -> safe (ret b) w Q P.
Proof. intros H; exact H. Qed.
Lemma safe_panic {W B} (w : W) (Q : B -> W -> Prop) (P : W -> Prop) : P w -> safe panic w Q P.
Proof. intros H; exact H. Qed.
Lemma safe_abort {W B} (w : W) (Q : B -> W -> Prop) (P : W -> Prop) : safe abort w Q P.
Proof. exact I. Qed.
Lemma safe_bind {W B C} (m : M W B) (f : B -> M W C) w Q P :
  safe m w (fun b w' => safe (f b) w' Q P) P -> safe (bind m f) w Q P.
Proof. unfold safe, bind. destruct (m w); auto. Qed.
Lemma safe_mono {W B} (m : M W B) w (Q Q' : B -> W -> Prop) (P P' : W -> Prop) :
  safe m w Q P -> (forall b w', Q b w' -> Q' b w') -> (forall w', P w' -> P' w') -> safe m w Q' P'.
Proof. unfold safe. destruct (m w); auto. Qed.
Lemma safe_debug {W} dbg b (w : W) (Q : unit -> W -> Prop) (P : W -> Prop) :
  (b = true -> Q tt w) -> (b = false -> dbg = false -> Q tt w) -> (b = false -> P w) -> safe (debug_assert dbg b) w Q P.
Proof.
  intros H1 H2 H3. unfold debug_assert. destruct dbg, b; cbn; unfold safe, ret, panic; auto.
Qed.
Lemma safe_debug_ok {W} dbg b (w : W) (Q : unit -> W -> Prop) (P : W -> Prop) :
  b = true -> Q tt w -> safe (debug_assert dbg b) w Q P.
Proof. intros -> H. unfold debug_assert. rewrite andb_false_r. exact H. Qed.

(** ** The invariant *)

Definition blocks (t : list (option handle)) : list ublock := flat_map h_blks (live t).

(** An entry of the drop list: address, count, function. *)
Definition item_of (h : handle) : list (Z * Z * glue) :=
  match h_item h, h_blks h with
  | Some g, u :: _ => [(u_ptr u, h_cnt h, g)]
  | _, _ => []
  end.
Definition items (t : list (option handle)) : list (Z * Z * glue) := flat_map item_of (live t).

Fixpoint chain (m : mem) (root : option Z) (l : list (Z * Z * glue)) : Prop :=
  match l with
  | [] => root = None
  | (p, c, g) :: l' =>
      root = Some p /\ 0 < p /\ p mod 8 = 0 /\
      load m p 8 = Some c /\ load m (p + 8) 8 = Some (fn_ptr g) /\
      exists r, load m (p + 16) 8 = Some (link r) /\ chain m r l'
  end.

(** The memory of [h] holds the values [vs]. *)
Definition holds (m : mem) (h : handle) (vs : list (option Z)) : Prop :=
  Z.of_nat (length vs) = h_cnt h /\
  forall i v, nth_error vs i = Some (Some v) ->
    if h_size h =? 0 then v = 0 else load m (h_ptr h + Z.of_nat i * h_size h) (h_size h) = Some v.

(** The reference is well placed in its block, behind the [Drops] if it is an
    item of the drop list. *)
Definition placed (h : handle) : Prop :=
  0 <= h_size h /\ 0 < h_align h /\ h_size h mod h_align h = 0 /\ h_ptr h mod h_align h = 0 /\ 0 <= h_cnt h /\
  match h_blks h with
  | [] => h_item h = None /\ (h_size h = 0 \/ h_cnt h = 0)
  | [u] =>
      u_ptr u <= h_ptr h /\ h_ptr h + h_cnt h * h_size h <= u_ptr u + u_len u /\
      match h_item h with
      | None => True
      | Some g =>
          glue_ok g /\ g_id g = h_id h /\ g_tsize g = h_size h /\ u_ptr u mod 8 = 0 /\
          u_ptr u + 24 <= h_ptr h /\ h_ptr h = u_ptr u + item_off (g_xalign g) + g_xoff g /\
          (h_cnt h <= 1 \/ g_xsize g = h_size h)
      end
  | _ => False
  end.

Definition registered (h : handle) : bool := match h_item h with Some _ => true | None => false end.

Definition agree (m : mem) (oh : option handle) (oe : option sval) : Prop :=
  match oh, oe with
  | None, None => True
  | Some h, Some (reg, id, vs) =>
      reg = registered h /\ id = h_id h /\ holds m h vs /\ placed h /\ (reg = true -> Forall (fun v => v <> None) vs)
  | _, _ => False
  end.

Section Inv.
  Context {W : Type} (amax smax : Z) (A : Allocator W) (own : W -> list ublock -> Prop).
  Hypothesis Hct : contract amax smax A own.
  Variable bomb : Z -> Z -> bool.

  Definition bmem (s : bl W) : mem := al_mem A (bl_w s).
  Definition state_of (s : bl W) : list (option sval) := fst (especs bomb [] (bl_log s)).

  (** [fr]: blocks that belong to others, or to calls in progress. *)
  Definition binv (fr : list ublock) (s : bl W) : Prop :=
    exists junk,
      own (bl_w s) (blocks (bl_tab s) ++ junk ++ fr) /\
      chain (bmem s) (bl_root s) (rev (items (bl_tab s))) /\
      Forall2 (agree (bmem s)) (bl_tab s) (state_of s) /\
      snd (especs bomb [] (bl_log s)) = drops_of (bl_log s).

  (** What a call leaves alone. *)
  Definition keeps (fr : list ublock) (s s' : bl W) : Prop :=
    same_on fr (bmem s) (bmem s') /\ exists d, bl_log s' = bl_log s ++ d.

  Lemma keeps_refl fr s : keeps fr s s.
  Proof. split; [apply same_on_refl|]. exists []. rewrite app_nil_r. reflexivity. Qed.
  Lemma keeps_trans fr s1 s2 s3 : keeps fr s1 s2 -> keeps fr s2 s3 -> keeps fr s1 s3.
  Proof.
    intros [S1 [d1 L1]] [S2 [d2 L2]]. split; [eapply same_on_trans; eassumption|].
    exists (d1 ++ d2). rewrite L2, L1, app_assoc. reflexivity.
  Qed.
  Lemma keeps_incl fr fr' s s' : incl fr' fr -> keeps fr s s' -> keeps fr' s s'.
  Proof. intros I [S D]. split; [eapply same_on_incl; eassumption|exact D]. Qed.
  Lemma keeps_tail u fr s s' : keeps (u :: fr) s s' -> keeps fr s s'.
  Proof. apply keeps_incl. intros x Hx. right. exact Hx. Qed.

  (** *** Memory changes elsewhere *)

  Lemma holds_ext m m' h vs :
    placed h -> (forall u x, In u (h_blks h) -> in_u x u -> m' x = m x) -> holds m h vs -> holds m' h vs.
  Proof.
    intros P S [L H]. split; [exact L|]. intros i v Hi. specialize (H i v Hi).
    destruct (Z.eqb_spec (h_size h) 0) as [Ez|Ez]; [exact H|]. rewrite <- H.
    destruct P as (P1 & P2 & P3 & P4 & P5 & P6).
    assert (Hl : (i < length vs)%nat) by (apply nth_error_Some; congruence).
    destruct (h_blks h) as [|u [|]]; [lia| |contradiction].
    destruct P6 as (P6 & P7 & _). apply load_ext; [lia|]. intros x Hx.
    apply (S u); [left; reflexivity|]. unfold in_u. nia.
  Qed.

  Lemma agree_ext m m' oh oe :
    match oh with Some h => forall u x, In u (h_blks h) -> in_u x u -> m' x = m x | None => True end ->
    agree m oh oe -> agree m' oh oe.
  Proof.
    destruct oh as [h|], oe as [[[reg id] vs]|]; cbn; auto. intros S (E1 & E2 & H & P & F).
    split; [exact E1|]. split; [exact E2|]. split; [eapply holds_ext; eassumption|]. split; assumption.
  Qed.

  Lemma agrees_ext m m' t e :
    same_on (blocks t) m m' -> Forall2 (agree m) t e -> Forall2 (agree m') t e.
  Proof.
    intros S H. induction H as [|oh oe t e H1 H2 IH]; constructor.
    - eapply agree_ext; [|exact H1]. destruct oh as [h|]; [|exact I]. intros u x Hu Hx. apply (S u); [|exact Hx].
      unfold blocks; cbn. apply in_or_app. left. exact Hu.
    - apply IH. intros u x Hu. apply S. unfold blocks in *. destruct oh; cbn; [apply in_or_app; right|]; exact Hu.
  Qed.

  Lemma chain_ext m m' r l :
    (forall p c g x, In (p, c, g) l -> p <= x < p + 24 -> m' x = m x) -> chain m r l -> chain m' r l.
  Proof.
    revert r. induction l as [|[[p c] g] l IH]; intros r S; cbn [chain]; [auto|].
    intros (E1 & E2 & E3 & E4 & E5 & r' & E6 & E7).
    assert (X : forall x, p <= x < p + 24 -> m' x = m x) by (intros x Hx; apply (S p c g); [left; reflexivity|exact Hx]).
    split; [exact E1|]. split; [exact E2|]. split; [exact E3|].
    split; [rewrite <- E4; apply load_ext; [lia|intros; apply X; lia]|].
    split; [rewrite <- E5; apply load_ext; [lia|intros; apply X; lia]|].
    exists r'. split; [rewrite <- E6; apply load_ext; [lia|intros; apply X; lia]|].
    apply IH; [|exact E7]. intros p' c' g' x Hin. apply (S p' c' g'). right. exact Hin.
  Qed.

  (** Items lie in blocks. *)
  Lemma items_in m t e p c g :
    Forall2 (agree m) t e -> In (p, c, g) (items t) ->
    exists u, In u (blocks t) /\ u_ptr u = p /\ 24 <= u_len u.
  Proof.
    intros H. induction H as [|oh oe t e H1 H2 IH]; cbn; [contradiction|].
    unfold items, blocks. destruct oh as [h|]; cbn [live flat_map].
    2: { intros Hin. apply IH in Hin. exact Hin. }
    rewrite in_app_iff. intros [Hin|Hin].
    - destruct oe as [[[reg id] vs]|]; [|contradiction]. destruct H1 as (_ & _ & _ & P & _).
      destruct P as (P1 & P2 & P3 & P4 & P5 & P6).
      unfold item_of in Hin. destruct (h_item h) as [g'|]; [|contradiction].
      destruct (h_blks h) as [|u [|]] eqn:Eb; [contradiction| |contradiction]. cbn in Hin. destruct Hin as [E|[]].
      inversion E; subst. exists u. split; [apply in_or_app; left; left; reflexivity|]. split; [reflexivity|]. nia.
    - destruct (IH Hin) as (u & I1 & I2). exists u. split; [apply in_or_app; right; exact I1|exact I2].
  Qed.

  Lemma chain_same m m' r t e :
    Forall2 (agree m) t e -> same_on (blocks t) m m' ->
    chain m r (rev (items t)) -> chain m' r (rev (items t)).
  Proof.
    intros H S. apply chain_ext. intros p c g x Hin Hx. apply in_rev in Hin.
    destruct (items_in _ _ _ _ _ _ H Hin) as (u & I1 & I2 & I3). apply (S u); [exact I1|]. unfold in_u. lia.
  Qed.

  (** The allocator's state may change as long as the blocks stay. *)
  Lemma binv_world fr' s w' junk' :
    Forall2 (agree (bmem s)) (bl_tab s) (state_of s) ->
    chain (bmem s) (bl_root s) (rev (items (bl_tab s))) ->
    snd (especs bomb [] (bl_log s)) = drops_of (bl_log s) ->
    own w' (blocks (bl_tab s) ++ junk' ++ fr') ->
    same_on (blocks (bl_tab s)) (bmem s) (al_mem A w') ->
    binv fr' (mkBl w' (bl_root s) (bl_tab s) (bl_log s)).
  Proof.
    intros H1 H2 H3 Ho S. exists junk'. split; [exact Ho|]. unfold bmem, state_of; cbn [bl_w bl_root bl_tab bl_log].
    split; [eapply chain_same; eassumption|]. split; [|exact H3]. eapply agrees_ext; eassumption.
  Qed.

  (** Changes by others. *)
  Lemma binv_external fr fr' s w' :
    binv fr s ->
    (forall us, own (bl_w s) (us ++ fr) -> own w' (us ++ fr') /\ same_on us (bmem s) (al_mem A w')) ->
    binv fr' (mkBl w' (bl_root s) (bl_tab s) (bl_log s)).
  Proof.
    intros (junk & Ho & H1 & H2 & H3) H. rewrite app_assoc in Ho. destruct (H _ Ho) as [Ho' S].
    apply (binv_world fr' s w' junk); auto.
    - rewrite app_assoc. exact Ho'.
    - eapply same_on_incl; [|exact S]. intros x Hx. apply in_or_app. left. exact Hx.
  Qed.

  (** A block of a call that was broken off is leaked. *)
  Lemma binv_leak u fr s : binv (u :: fr) s -> binv fr s.
  Proof.
    intros (junk & Ho & H). exists (junk ++ [u]). split; [|exact H].
    rewrite <- app_assoc. exact Ho.
  Qed.

  Lemma binv_perm fr fr' s : Permutation fr fr' -> binv fr s -> binv fr' s.
  Proof.
    intros P (junk & Ho & H). exists junk. split; [|exact H]. apply (ct_perm _ _ _ _ Hct _ _ _ Ho).
    apply Permutation_app_head, Permutation_app_head, P.
  Qed.

  Lemma binv_own fr s : binv fr s -> exists us, own (bl_w s) (us ++ fr) /\ incl (blocks (bl_tab s)) us.
  Proof.
    intros (junk & Ho & H). exists (blocks (bl_tab s) ++ junk). split; [rewrite <- app_assoc; exact Ho|].
    intros x Hx. apply in_or_app. left. exact Hx.
  Qed.

  Lemma own_front u fr s junk :
    own (bl_w s) (blocks (bl_tab s) ++ junk ++ u :: fr) ->
    own (bl_w s) (u :: blocks (bl_tab s) ++ junk ++ fr).
  Proof.
    intros Ho. apply (ct_perm _ _ _ _ Hct _ _ _ Ho). rewrite !app_assoc. symmetry. apply Permutation_middle.
  Qed.

  Lemma own_back u fr (t : list ublock) junk w :
    own w (u :: t ++ junk ++ fr) -> own w (t ++ junk ++ u :: fr).
  Proof.
    intros Ho. apply (ct_perm _ _ _ _ Hct _ _ _ Ho). rewrite !app_assoc. apply Permutation_middle.
  Qed.

  Lemma binv_good u fr s : binv (u :: fr) s -> u_ok amax u.
  Proof.
    intros (junk & Ho & _). destruct (ct_wf _ _ _ _ Hct _ _ Ho) as [F _]. rewrite Forall_forall in F.
    apply F. apply in_or_app. right. apply in_or_app. right. left. reflexivity.
  Qed.

  (** *** Elementary steps *)

  Lemma safe_on_alloc {B} (m : M W B) s (Q : B -> bl W -> Prop) P :
    wp m (bl_w s) (fun b w' => Q b (mkBl w' (bl_root s) (bl_tab s) (bl_log s))) -> safe (on_alloc m) s Q P.
  Proof. unfold wp, safe, on_alloc. destruct (m (bl_w s)); auto; contradiction. Qed.

  Definition same_control (s s' : bl W) : Prop :=
    bl_root s' = bl_root s /\ bl_tab s' = bl_tab s /\ bl_log s' = bl_log s.

  Lemma same_control_refl s : same_control s s.
  Proof. repeat split. Qed.
  Lemma same_control_trans s1 s2 s3 : same_control s1 s2 -> same_control s2 s3 -> same_control s1 s3.
  Proof. unfold same_control. intros (A1 & A2 & A3) (B1 & B2 & B3). repeat split; congruence. Qed.
  Lemma same_control_keeps fr s s' : same_control s s' -> same_on fr (bmem s) (bmem s') -> keeps fr s s'.
  Proof. intros (_ & _ & L) S. split; [exact S|]. exists []. rewrite app_nil_r. exact L. Qed.

  Lemma safe_allocate fr s l P :
    binv fr s -> req_ok smax l ->
    safe (on_alloc (al_allocate A l)) s (fun r s' =>
      same_control s s' /\ same_on fr (bmem s) (bmem s') /\
      match r with
      | None => binv fr s'
      | Some b => good_block amax l b /\ binv (mkU (b_ptr b) (b_len b) l :: fr) s'
      end) P.
  Proof.
    intros (junk & Ho & H1 & H2 & H3) Hl. apply safe_on_alloc.
    eapply wp_mono; [apply (ct_allocate _ _ _ _ Hct _ _ _ Ho Hl)|].
    intros r w' (S & R). split; [repeat split|]. apply same_on_app in S. destruct S as [S1 S2].
    apply same_on_app in S2. destruct S2 as [S2 S3]. split; [exact S3|].
    destruct r as [b|].
    - destruct R as [G Ho']. split; [exact G|]. eapply binv_world; eauto. apply own_back. exact Ho'.
    - eapply binv_world; eauto.
  Qed.

  Lemma safe_deallocate u fr s l P :
    binv (u :: fr) s -> fits l u ->
    safe (on_alloc (al_deallocate A (u_ptr u) l)) s (fun _ s' =>
      same_control s s' /\ same_on fr (bmem s) (bmem s') /\ binv fr s') P.
  Proof.
    intros (junk & Ho & H1 & H2 & H3) Hf. apply own_front in Ho. apply safe_on_alloc.
    eapply wp_mono; [apply (ct_deallocate _ _ _ _ Hct _ _ _ _ Ho Hf)|].
    intros _ w' (S & Ho'). split; [repeat split|]. apply same_on_app in S. destruct S as [S1 S2].
    apply same_on_app in S2. destruct S2 as [S2 S3]. split; [exact S3|]. eapply binv_world; eauto.
  Qed.

  (** Writing into a block of a call in progress. *)
  Lemma binv_poke u fr s m' :
    binv (u :: fr) s -> (forall x, ~ in_u x u -> m' x = bmem s x) ->
    let s' := mkBl (al_set_mem A (bl_w s) m') (bl_root s) (bl_tab s) (bl_log s) in
    binv (u :: fr) s' /\ bmem s' = m' /\ same_on fr (bmem s) (bmem s') /\ same_on (blocks (bl_tab s)) (bmem s) m'.
  Proof.
    intros (junk & Ho & H1 & H2 & H3) Hm s'.
    assert (Em : bmem s' = m') by (unfold bmem, s'; cbn [bl_w]; apply (ct_mem _ _ _ _ Hct)).
    assert (Hof : own (bl_w s) (u :: blocks (bl_tab s) ++ junk ++ fr)) by (apply own_front; exact Ho).
    destruct (ct_wf _ _ _ _ Hct _ _ Hof) as [_ [Hd _]]. rewrite Forall_forall in Hd.
    assert (S : same_on (blocks (bl_tab s) ++ junk ++ fr) (bmem s) m').
    { intros v x Hv Hx. apply Hm. intros Hu. exact (Hd v Hv x Hu Hx). }
    apply same_on_app in S. destruct S as [S1 S2]. apply same_on_app in S2. destruct S2 as [S2 S3].
    split; [|split; [exact Em|split; [rewrite Em; exact S3|exact S1]]].
    apply (binv_world (u :: fr) s _ junk); auto.
    - apply (ct_write _ _ _ _ Hct); [exact Ho|]. intros x Hx. apply Hm. apply (Hx u).
      apply in_or_app; right. apply in_or_app; right. left; reflexivity.
    - rewrite (ct_mem _ _ _ _ Hct). exact S1.
  Qed.

  Lemma safe_store u fr s a n al v (Q : unit -> bl W -> Prop) P :
    binv (u :: fr) s -> a mod al = 0 -> u_ptr u <= a -> a + n <= u_ptr u + u_len u ->
    (forall s', binv (u :: fr) s' -> same_control s s' -> bmem s' = store (bmem s) a n v ->
       same_on fr (bmem s) (bmem s') -> Q tt s') ->
    safe (store_at A a n al v) s Q P.
  Proof.
    intros Hi Ha H1 H2 HQ. unfold store_at. rewrite Ha, Z.eqb_refl. apply safe_on_alloc. unfold mstore, wp.
    destruct (binv_poke u fr s (store (bmem s) a n v) Hi) as (B1 & B2 & B3 & _).
    { intros x Hx. apply store_other. unfold in_u in Hx. lia. }
    apply HQ; auto. repeat split.
  Qed.

  Lemma safe_fill u fr s a n c (Q : unit -> bl W -> Prop) P :
    binv (u :: fr) s -> u_ptr u <= a -> a + n <= u_ptr u + u_len u ->
    (forall s', binv (u :: fr) s' -> same_control s s' -> bmem s' = fill (bmem s) a n c ->
       same_on fr (bmem s) (bmem s') -> Q tt s') ->
    safe (on_alloc (mfill A a n c)) s Q P.
  Proof.
    intros Hi H1 H2 HQ. apply safe_on_alloc. unfold mfill, wp.
    destruct (binv_poke u fr s (fill (bmem s) a n c) Hi) as (B1 & B2 & B3 & _).
    { intros x Hx. apply fill_other. unfold in_u in Hx. lia. }
    apply HQ; auto. repeat split.
  Qed.

  (** Events that do not matter here. *)
  Lemma binv_quiet fr s e :
    quiet_event e = true -> binv fr s -> binv fr (mkBl (bl_w s) (bl_root s) (bl_tab s) (bl_log s ++ [e])).
  Proof.
    intros He (junk & Ho & H1 & H2 & H3). exists junk. unfold bmem, state_of; cbn [bl_w bl_root bl_tab bl_log].
    assert (Hq : forallb quiet_event [e] = true) by (cbn; rewrite He; reflexivity).
    rewrite especs_app, drops_of_app.
    destruct (especs_quiet bomb (fst (especs bomb [] (bl_log s))) [e] Hq) as [E1 E2]. rewrite E1, E2. cbn [fst snd].
    rewrite !app_nil_r. auto.
  Qed.

  Lemma safe_log fr s e (Q : unit -> bl W -> Prop) P :
    quiet_event e = true -> binv fr s ->
    (forall s', binv fr s' -> bmem s' = bmem s -> bl_tab s' = bl_tab s -> bl_root s' = bl_root s ->
       bl_log s' = bl_log s ++ [e] -> Q tt s') ->
    safe (log e) s Q P.
  Proof. intros He Hi HQ. unfold safe, log. apply HQ; try reflexivity. apply binv_quiet; assumption. Qed.

  (** *** Handing out a reference *)

  Lemma state_of_new s w r t reg id vs :
    state_of (mkBl w r t (bl_log s ++ [ENew reg id vs])) = state_of s ++ [Some (reg, id, vs)].
  Proof. unfold state_of; cbn [bl_log]. rewrite especs_app. cbn. reflexivity. Qed.

  Lemma items_app t1 t2 : items (t1 ++ t2) = items t1 ++ items t2.
  Proof. unfold items. rewrite live_app. apply flat_map_app. Qed.
  Lemma blocks_app t1 t2 : blocks (t1 ++ t2) = blocks t1 ++ blocks t2.
  Proof. unfold blocks. rewrite live_app. apply flat_map_app. Qed.

  Lemma binv_hand_out fr s h vs r' :
    binv (h_blks h ++ fr) s ->
    agree (bmem s) (Some h) (Some (registered h, h_id h, vs)) ->
    (match h_item h with
     | None => r' = bl_root s
     | Some g =>
         exists u, h_blks h = [u] /\ r' = Some (u_ptr u) /\
           load (bmem s) (u_ptr u) 8 = Some (h_cnt h) /\ load (bmem s) (u_ptr u + 8) 8 = Some (fn_ptr g) /\
           load (bmem s) (u_ptr u + 16) 8 = Some (link (bl_root s))
     end) ->
    binv fr (mkBl (bl_w s) r' (bl_tab s ++ [Some h]) (bl_log s ++ [ENew (registered h) (h_id h) vs])).
  Proof.
    intros (junk & Ho & H1 & H2 & H3) Ha Hr. exists junk.
    assert (Eb : blocks (bl_tab s ++ [Some h]) = blocks (bl_tab s) ++ h_blks h).
    { rewrite blocks_app. unfold blocks at 2. cbn. rewrite app_nil_r. reflexivity. }
    assert (Eit : items (bl_tab s ++ [Some h]) = items (bl_tab s) ++ item_of h).
    { rewrite items_app. unfold items at 2. cbn. rewrite app_nil_r. reflexivity. }
    cbn [bl_w bl_root bl_tab bl_log]. unfold bmem; cbn [bl_w]. fold (bmem s).
    rewrite state_of_new, Eb, Eit. split.
    { apply (ct_perm _ _ _ _ Hct _ _ _ Ho). rewrite <- !app_assoc. apply Permutation_app_head.
      rewrite !app_assoc. apply Permutation_app_tail, Permutation_app_comm. }
    split.
    { rewrite rev_app_distr. unfold item_of. destruct (h_item h) as [g|] eqn:Eg.
      - destruct Hr as (u & Eu & -> & L1 & L2 & L3). rewrite Eu. cbn [rev app chain].
        split; [reflexivity|]. destruct Ha as (_ & _ & _ & P & _).
        destruct P as (P1 & P2 & P3 & P4 & P5 & P6). rewrite Eu, Eg in P6.
        destruct P6 as (P6 & P7 & P8 & P9 & P10 & P11 & P12 & P13 & P14).
        assert (Gu : u_ok amax u).
        { destruct (ct_wf _ _ _ _ Hct _ _ Ho) as [F _]. rewrite Forall_forall in F. apply F.
          apply in_or_app. right. apply in_or_app. right. apply in_or_app. left. rewrite Eu. left. reflexivity. }
        destruct Gu as ((G1 & _) & _). cbn [ublk b_ptr] in G1.
        split; [exact G1|]. split; [exact P11|]. split; [exact L1|]. split; [exact L2|]. exists (bl_root s).
        split; [exact L3|exact H1].
      - cbn. rewrite Hr. exact H1. }
    split.
    { apply Forall2_app; [exact H2|]. constructor; [exact Ha|constructor]. }
    rewrite especs_app, drops_of_app. cbn. rewrite !app_nil_r. exact H3.
  Qed.

  Lemma safe_hand_out fr s h vs (Q : unit -> bl W -> Prop) P :
    binv (h_blks h ++ fr) s -> h_item h = None ->
    agree (bmem s) (Some h) (Some (registered h, h_id h, vs)) ->
    (forall s', binv fr s' -> bmem s' = bmem s ->
       bl_log s' = bl_log s ++ [ENew false (h_id h) vs] -> Q tt s') ->
    safe (hand_out h vs) s Q P.
  Proof.
    intros Hi Hn Ha HQ. unfold hand_out, safe. fold (registered h). apply HQ.
    - apply binv_hand_out; auto. rewrite Hn. reflexivity.
    - reflexivity.
    - unfold registered. rewrite Hn. reflexivity.
  Qed.
End Inv.
