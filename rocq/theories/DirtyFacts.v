(** What unwritten memory contains does not matter. *)
From Coq Require Import Permutation.
From Verif Require Import Base BaseFacts Alloc AllocFacts Arena ArenaFacts ArenaInv ArenaOps BlinkAlloc BlinkFacts History HistoryFacts
  Setup SetupFacts Tower Blink BlinkInv BlinkIter BlinkEnv BlinkProps Param BlinkParam Dirty.

Lemma cell_undef (c : cell) : c = Undef \/ c <> Undef.
Proof. destruct c; auto; right; discriminate. Qed.

(** ** Allocators that keep the contract with any dirt *)
Section Soiled.
  Context {W : Type} (amax smax : Z) (A : Allocator W) (own : W -> list ublock -> Prop) (dirt : W -> Z -> cell).
  Hypothesis Hct : contract amax smax A own.

  Lemma smear_out w us u a n : own w (u :: us) -> u_ptr u <= a -> a + n <= u_ptr u + u_len u ->
    own (al_set_mem A w (smear (dirt w) (al_mem A w) a n)) (u :: us) /\
    same_on us (al_mem A w) (al_mem A (al_set_mem A w (smear (dirt w) (al_mem A w) a n))).
  Proof.
    intros Ho H1 H2. destruct (ct_wf _ _ _ _ Hct _ _ Ho) as [_ [Hd _]]. split.
    - apply (ct_write _ _ _ _ Hct); [exact Ho|]. intros x Hx. unfold smear. destruct ((a <=? x) && (x <? a + n)) eqn:E; [|reflexivity].
      apply andb_true_iff in E. exfalso. apply (Hx u (or_introl eq_refl)). unfold in_u. lia.
    - intros v x Hv Hx. rewrite (ct_mem _ _ _ _ Hct). unfold smear. destruct ((a <=? x) && (x <? a + n)) eqn:E; [|reflexivity].
      apply andb_true_iff in E. exfalso. rewrite Forall_forall in Hd. apply (Hd v Hv x); [unfold in_u; lia|exact Hx].
  Qed.
  Lemma soil_resize_ok (resize : Z -> Layout -> Layout -> M W (option block)) w us u old new :
    own w (u :: us) -> fits old u -> req_ok smax new ->
    wp (resize (u_ptr u) old new) w (fun r w' =>
      same_on us (al_mem A w) (al_mem A w') /\
      match r with
      | None => same_on [u] (al_mem A w) (al_mem A w') /\ own w' (u :: us)
      | Some b =>
          good_block amax new b /\ own w' (mkU (b_ptr b) (b_len b) new :: us) /\
          forall i, 0 <= i < Z.min (l_size old) (l_size new) -> al_mem A w' (b_ptr b + i) = al_mem A w (u_ptr u + i)
      end) ->
    wp (soil_resize A dirt resize (u_ptr u) old new) w (fun r w' =>
      same_on us (al_mem A w) (al_mem A w') /\
      match r with
      | None => same_on [u] (al_mem A w) (al_mem A w') /\ own w' (u :: us)
      | Some b =>
          good_block amax new b /\ own w' (mkU (b_ptr b) (b_len b) new :: us) /\
          forall i, 0 <= i < Z.min (l_size old) (l_size new) -> al_mem A w' (b_ptr b + i) = al_mem A w (u_ptr u + i)
      end).
  Proof.
    intros Ho Hf Hreq H. unfold soil_resize. apply wp_bind. eapply wp_mono; [exact H|]. intros [b|] w' (Hs & H'); [|split; [exact Hs|exact H']].
    destruct H' as (Hg & Ho' & Hc). set (n := Z.min (l_size old) (l_size new)) in *.
    assert (0 <= n <= b_len b).
    { destruct Hg as (_ & _ & Hg & _). pose proof (proj1 (ct_wf _ _ _ _ Hct _ _ Ho)) as Hw. apply Forall_inv in Hw. destruct Hw as (_ & _ & Hw). destruct Hf as [_ Hf].
      unfold req_ok, req_okb in Hreq. apply andb_true_iff in Hreq. destruct Hreq as [Hreq _]. apply andb_true_iff in Hreq. lia. }
    destruct (smear_out w' us _ (b_ptr b + n) (b_len b - n) Ho') as [H1 H2]; cbn [u_ptr u_len]; [lia|lia|].
    unfold wp, bind, msmear, ret. split; [|split; [exact Hg|split; [exact H1|]]].
    - intros v x Hv Hx. rewrite (H2 v x Hv Hx). apply (Hs v x Hv Hx).
    - intros i Hi. rewrite (ct_mem _ _ _ _ Hct). unfold smear. replace (b_ptr b + n <=? b_ptr b + i) with false by lia. cbn. apply Hc. exact Hi.
  Qed.
  Lemma soil_contract : contract amax smax (soil A dirt) own.
  Proof.
    constructor; cbn [soil al_mem al_set_mem al_allocate al_deallocate al_grow al_shrink]; try apply Hct.
    - intros w us l Ho Hl. unfold soil_allocate. apply wp_bind. eapply wp_mono; [apply (ct_allocate _ _ _ _ Hct w us l Ho Hl)|].
      intros [b|] w' (Hs & H); [|split; [exact Hs|exact H]]. destruct H as (Hg & Ho').
      destruct (smear_out w' us _ (b_ptr b) (b_len b) Ho') as [H1 H2]; cbn [u_ptr u_len]; [lia|lia|].
      unfold wp, bind, msmear, ret. split; [|split; [exact Hg|exact H1]]. intros v x Hv Hx. rewrite (H2 v x Hv Hx). apply (Hs v x Hv Hx).
    - intros w us u l Ho Hf. unfold soil_deallocate. apply wp_bind. unfold msmear, wp at 1.
      destruct (smear_out w us u (u_ptr u) (l_size l) Ho) as [H1 H2]; [lia|destruct Hf; lia|].
      eapply wp_mono; [apply (ct_deallocate _ _ _ _ Hct _ us u l H1 Hf)|]. intros _ w' (Hs & Ho'). split; [|exact Ho'].
      intros v x Hv Hx. rewrite (Hs v x Hv Hx). apply (H2 v x Hv Hx).
    - intros w us u old new Ho Hf Hl Hle. pose proof (soil_resize_ok (al_grow A) w us u old new Ho Hf Hl) as H. rewrite Z.min_l in H by lia.
      apply H. apply Hct; assumption.
    - intros w us u old new Ho Hf Hl Hle. pose proof (soil_resize_ok (al_shrink A) w us u old new Ho Hf Hl) as H. rewrite Z.min_r in H by lia.
      apply H. apply Hct; assumption.
  Qed.
  Lemma soil_exact : exact_alloc smax A own -> exact_alloc smax (soil A dirt) own.
  Proof.
    intros (H1 & H2 & H3). split; [|split].
    - intros w us l Ho Hl. cbn [soil al_allocate]. unfold soil_allocate. apply wp_bind. eapply wp_mono; [apply (H1 w us l Ho Hl)|]. intros [b|] w' H; exact H.
    - intros w us u old new Ho Hf Hl Hle. cbn [soil al_grow]. unfold soil_resize. apply wp_bind. eapply wp_mono; [apply (H2 w us u old new Ho Hf Hl Hle)|].
      intros [b|] w' H; exact H.
    - intros p old new. cbn [soil al_grow al_shrink]. unfold soil_resize. rewrite H3. reflexivity.
  Qed.
End Soiled.

(** ** Allocators that answer alike, whatever the dirt *)

(** Losing what is in memory does no harm, and neither does dirt in its place. *)
Definition forgiving {W1 W2} (R : W1 -> W2 -> Prop) (A1 : Allocator W1) (A2 : Allocator W2) : Prop :=
  forall w1 w2 a n, R w1 w2 ->
    R (al_set_mem A1 w1 (smear (fun _ => Undef) (al_mem A1 w1) a n)) w2 /\
    forall d, R (al_set_mem A1 w1 (smear (fun _ => Undef) (al_mem A1 w1) a n)) (al_set_mem A2 w2 (smear d (al_mem A2 w2) a n)).

Section Forgiving.
  Context {W1 W2 : Type} (R : W1 -> W2 -> Prop) (A1 : Allocator W1) (A2 : Allocator W2) (HA : alike R A1 A2) (HF : forgiving R A1 A2).
  Notation B1 := (soil A1 (fun _ _ => Undef)).

  Lemma smear_like dirt a n : like R (msmear A1 (fun _ _ => Undef) a n) (msmear A2 dirt a n).
  Proof. intros w1 w2 H. eexists. split; [reflexivity|]. apply HF. exact H. Qed.
  Lemma soil_alike dirt : alike R B1 (soil A2 dirt).
  Proof.
    constructor; intros; try (apply HA); cbn [soil al_allocate al_deallocate al_grow al_shrink].
    - apply like_bind; [apply HA|]. intros [b|]; [|apply like_ret]. apply like_bind; [apply smear_like|]. intros _. apply like_ret.
    - apply like_bind; [apply smear_like|]. intros _. apply HA.
    - apply like_bind; [apply HA|]. intros [b|]; [|apply like_ret]. apply like_bind; [apply smear_like|]. intros _. apply like_ret.
    - apply like_bind; [apply HA|]. intros [b|]; [|apply like_ret]. apply like_bind; [apply smear_like|]. intros _. apply like_ret.
  Qed.
  Lemma smear_skip {B} a n (m1 : M W1 B) m2 : like R m1 m2 -> like R (msmear A1 (fun _ _ => Undef) a n ;;; m1) m2.
  Proof. intros H w1 w2 HR. unfold bind, msmear. apply H. apply HF. exact HR. Qed.
  Lemma like_ret_r {B C} (m1 : M W1 B) (m2 : M W2 B) (f : B -> M W1 C) (g : B -> C) :
    like R m1 m2 -> (forall b, like R (f b) (ret (g b))) -> like R (bind m1 f) (bind m2 (fun b => ret (g b))).
  Proof. intros H1 H2. apply like_bind; assumption. Qed.
  Lemma like_id {B} (m1 : M W1 B) (m2 : M W2 B) (f : B -> M W1 B) : like R m1 m2 -> (forall b, like R (f b) (ret b)) -> like R (bind m1 f) m2.
  Proof.
    intros H1 H2 w1 w2 HR. pose proof (like_bind R m1 m2 f ret H1 H2 w1 w2 HR) as H. unfold bind at 2 3 4 in H. 
    destruct (bind m1 f w1); auto; destruct (m2 w2); auto.
  Qed.
  Lemma clean_alike : alike R B1 A2.
  Proof.
    constructor; intros; try (apply HA); cbn [soil al_allocate al_deallocate al_grow al_shrink].
    - apply like_id; [apply HA|]. intros [b|]; [|apply like_ret]. apply smear_skip, like_ret.
    - apply smear_skip. apply HA.
    - apply like_id; [apply HA|]. intros [b|]; [|apply like_ret]. apply smear_skip, like_ret.
    - apply like_id; [apply HA|]. intros [b|]; [|apply like_ret]. apply smear_skip, like_ret.
  Qed.
  Lemma blink_forgiving dbg : forgiving (both_arenas R) (blink A1 dbg) (blink A2 dbg).
  Proof.
    intros [ar1 w1] [ar2 w2] a n [E H]. destruct (HF w1 w2 a n H) as [H1 H2]. cbn in E. subst ar2. split; [split; [reflexivity|exact H1]|].
    intros d. split; [reflexivity|apply H2].
  Qed.
End Forgiving.

(** ** Memory *)
Lemma agree_load m0 m a n v : agreeing m0 m -> load m0 a n = Some v -> load m a n = Some v.
Proof.
  intros H. unfold load. destruct (m0 a) eqn:Ea; try discriminate. rewrite (H a) by (rewrite Ea; discriminate). rewrite Ea.
  generalize (Z.to_nat (n - 1)). intros k. assert (G : forall a, all_cells is_tail m0 a k = true -> all_cells is_tail m a k = true).
  { induction k as [|k IH]; intros b; cbn [all_cells]; [auto|]. intros Hb. apply andb_true_iff in Hb. destruct Hb as [Hb1 Hb2].
    rewrite (IH _ Hb2), andb_true_r. rewrite (H b); [exact Hb1|]. intros E. rewrite E in Hb1. discriminate. }
  destruct (all_cells is_tail m0 (a + 1) k) eqn:E; [|discriminate]. rewrite (G _ E). auto.
Qed.
Lemma agree_if (b : Z -> bool) f0 f g0 g : (forall x, b x = true -> f0 x <> Undef -> f x = f0 x) -> (forall x, g0 x <> Undef -> g x = g0 x) ->
  agreeing (fun x => if b x then f0 x else g0 x) (fun x => if b x then f x else g x).
Proof. intros H1 H2 x Hx. cbn in *. destruct (b x) eqn:E; auto. Qed.
Lemma agree_smear d0 m0 d m a n : agreeing d0 d -> agreeing m0 m -> agreeing (smear d0 m0 a n) (smear d m a n).
Proof. intros H1 H2. apply (agree_if (fun x => (a <=? x) && (x <? a + n)) d0 d m0 m); [intros x _; apply H1|exact H2]. Qed.
Lemma agree_undef d : agreeing (fun _ => Undef) d. Proof. intros x H. congruence. Qed.
Lemma agree_refl m : agreeing m m. Proof. intros x _. reflexivity. Qed.

Section Base.
  Variable smax : Z.
  Variable S : strategy.
  Variable dirt : list uevent -> Z -> cell.
  Notation A1 := (base smax S).
  Notation A2 := (dirty_base smax S dirt).

  Lemma resize_like p old new n : like same_base (base_resize smax S p old new n) (dirty_resize smax S dirt p old new n).
  Proof.
    intros [m1 tr] [m2 tr2] [E H]. cbn in E, H. subst tr2. unfold base_resize, dirty_resize. cbn [bw_trace bw_mem].
    destruct (negb _); [exact I|]. destruct (remove_fit _ _ _); [|exact I]. eexists. split; [reflexivity|]. split; [reflexivity|].
    cbn [bw_mem]. destruct (Alloc.st_resize S tr p old new) as [b|]; [|exact H].
    apply (agree_if (fun x => (b_ptr b <=? x) && (x <? b_ptr b + b_len b))).
    - intros x _. destruct (x <? _); [apply H|congruence].
    - intros x. apply (agree_smear (fun _ => Undef) m1 _ m2 p (l_size old)); [apply agree_undef|exact H].
  Qed.
  Lemma base_alike : alike same_base A1 A2.
  Proof.
    constructor; intros; cbn [base dirty_base al_allocate al_deallocate al_grow al_shrink].
    - intros [m1 tr] [m2 tr2] [E H]. cbn in E, H. subst tr2. unfold mload. cbn. destruct (load m1 a n) eqn:E; [|exact I].
      rewrite (agree_load _ _ _ _ _ H E). eexists. split; [reflexivity|]. split; [reflexivity|exact H].
    - intros [m1 tr] [m2 tr2] [E H]. cbn in E, H. subst tr2. eexists. split; [reflexivity|]. split; [reflexivity|]. cbn.
      apply (agree_if (fun x => (a <=? x) && (x <? a + n))); auto.
    - intros [m1 tr] [m2 tr2] [E H]. cbn in E, H. subst tr2. eexists. split; [reflexivity|]. split; [reflexivity|]. cbn.
      apply (agree_if (fun x => (a <=? x) && (x <? a + n))); auto.
    - intros [m1 tr] [m2 tr2] [E H]. cbn in E, H. subst tr2. unfold base_allocate, dirty_allocate. cbn [bw_trace bw_mem].
      destruct (negb _); [exact I|]. eexists. split; [reflexivity|]. split; [reflexivity|]. cbn [bw_mem].
      destruct (st_alloc S tr l) as [b|]; [|exact H]. apply (agree_smear (fun _ => Undef)); [apply agree_undef|exact H].
    - intros [m1 tr] [m2 tr2] [E H]. cbn in E, H. subst tr2. unfold base_deallocate, dirty_deallocate. cbn [bw_trace bw_mem].
      destruct (negb _); [exact I|]. destruct (remove_fit _ _ _); [|exact I]. eexists. split; [reflexivity|]. split; [reflexivity|].
      apply (agree_smear (fun _ => Undef)); [apply agree_undef|exact H].
    - unfold base_grow, dirty_grow. destruct (_ <=? _); [apply resize_like|apply like_ub].
    - unfold base_shrink, dirty_shrink. destruct (_ <=? _); [apply resize_like|apply like_ub].
    - intros [m1 tr] [m2 tr2] [E H]. cbn in E, H. subst tr2. unfold mcopy. cbn. destruct (_ || _); [|exact I]. eexists. split; [reflexivity|]. split; [reflexivity|]. cbn.
      apply (agree_if (fun x => (dst <=? x) && (x <? dst + n))); auto.
    - intros [m1 tr] [m2 tr2] [E H]. cbn in E, H. subst tr2. eexists. split; [reflexivity|]. split; [reflexivity|]. cbn.
      apply (agree_if (fun x => (a <=? x) && (x <? a + Z.of_nat (length cs)))); auto.
  Qed.
  Lemma base_forgiving : forgiving same_base A1 A2.
  Proof.
    intros [m1 tr] [m2 tr2] a n [E H]. cbn in E, H. subst tr2. split; [|intros d]; (split; [reflexivity|]); cbn.
    - intros x. unfold smear. destruct (_ && _); [congruence|apply H].
    - apply agree_smear; [apply agree_undef|exact H].
  Qed.
End Base.

(** ** Towers *)
Section Towers.
  Variable dbg : bool.
  Variable bmax : Z.
  Variable S : strategy.
  Notation spotless := (grimy dbg bmax S blank blanks).
  Notation spotless_reset := (grimy_reset dbg bmax S blank blanks).

  Lemma grimy_alike low high ls : alike (same_tower ls) (spotless ls) (grimy dbg bmax S low high ls) /\
    forgiving (same_tower ls) (spotless ls) (grimy dbg bmax S low high ls).
  Proof.
    induction ls as [|l ls [IH1 IH2]]; cbn [grimy same_tower].
    - split; [exact (base_alike bmax S low)|exact (base_forgiving bmax S low)].
    - pose proof (blink_forgiving _ _ _ IH2 dbg) as HF. split; [|exact HF].
      exact (soil_alike _ _ _ (blink_alike _ _ _ IH1 dbg) HF (high (l :: ls))).
  Qed.
  Lemma tower_alike ls : alike (same_tower ls) (spotless ls) (tower dbg bmax S ls) /\ forgiving (same_tower ls) (spotless ls) (tower dbg bmax S ls).
  Proof.
    induction ls as [|l ls [IH1 IH2]]; cbn [grimy tower same_tower].
    - split; [exact (base_alike bmax S blank)|exact (base_forgiving bmax S blank)].
    - pose proof (blink_forgiving _ _ _ IH2 dbg) as HF. split; [|exact HF].
      exact (clean_alike _ _ _ (blink_alike _ _ _ IH1 dbg) HF).
  Qed.
  Lemma grimy_reset_like low high ls keep : like (same_tower ls) (spotless_reset ls keep) (grimy_reset dbg bmax S low high ls keep).
  Proof.
    destruct ls as [|l ls]; [apply like_ret|]. cbn [grimy_reset same_tower]. destruct keep; apply (la_reset (same_tower ls)), grimy_alike.
  Qed.
  Lemma tower_reset_like ls keep : like (same_tower ls) (spotless_reset ls keep) (tower_reset dbg bmax S ls keep).
  Proof.
    destruct ls as [|l ls]; [apply like_ret|]. cbn [grimy_reset tower_reset same_tower]. destruct keep; apply (la_reset (same_tower ls)), tower_alike.
  Qed.
  Lemma start_same m ls : same_tower ls (grimy_start (fun _ => Undef) ls) (grimy_start m ls).
  Proof. induction ls as [|l ls IH]; cbn [grimy_start same_tower]; [split; [reflexivity|apply agree_undef]|]. split; [reflexivity|exact IH]. Qed.
  Lemma start_tower ls : grimy_start (fun _ => Undef) ls = tower_start ls.
  Proof. induction ls as [|l ls IH]; cbn [grimy_start tower_start]; [reflexivity|]. rewrite IH. reflexivity. Qed.

  Variable amax : Z.
  Hypothesis Hamax : 0 <= amax <= USIZE_MAX.
  Hypothesis Hbot : amax <= bmax.
  Hypothesis Hhon : honest amax S.

  Fixpoint spotless_own (ls : list level) : TW ls -> list ublock -> Prop :=
    match ls with
    | [] => base_own amax bmax
    | l :: ls' => blink_own amax (spotless ls') (spotless_own ls') (fun _ _ => True) [] (lv_min l)
    end.
  Lemma inner_contract l ls : cfg_ok dbg amax (lv_smax l) (lv_min l) (top_smax bmax ls) -> contract amax (top_smax bmax ls) (spotless ls) (spotless_own ls) ->
    contract amax (lv_smax l) (blink (spotless ls) dbg) (spotless_own (l :: ls)).
  Proof. intros H1 H2. apply (blink_contract amax (lv_smax l) (top_smax bmax ls) (spotless ls) (spotless_own ls) H2 Hamax); [apply jinv_true|exact H1]. Qed.
  Lemma spotless_contract ls : tower_ok dbg bmax amax ls -> contract amax (top_smax bmax ls) (spotless ls) (spotless_own ls).
  Proof.
    induction ls as [|l ls IH]; intros H.
    - exact (base_contract amax bmax S Hbot Hhon).
    - destruct H as (_ & H2 & H3). exact (soil_contract amax (lv_smax l) _ _ _ (inner_contract l ls H2 (IH H3))).
  Qed.
  Lemma spotless_start ls : tower_ok dbg bmax amax ls -> spotless_own ls (grimy_start (fun _ => Undef) ls) [].
  Proof.
    induction ls as [|l ls IH]; intros H; cbn [grimy_start spotless_own].
    - split; [|exact I]. split; [|constructor]. split; constructor; constructor.
    - destruct H as (H1 & _ & H3). exists []. split; [|split; [exact I|reflexivity]].
      apply (arep_new amax (top_smax bmax ls) (spotless ls) (spotless_own ls) []); [apply spotless_contract; exact H3|apply IH; exact H3|exact H1].
  Qed.
  Lemma spotless_reset_own l ls k w us : tower_ok dbg bmax amax (l :: ls) -> spotless_own (l :: ls) w us ->
    wp (spotless_reset (l :: ls) k) w (fun _ w' => spotless_own (l :: ls) w' []).
  Proof.
    intros (_ & _ & H3) (cs & R & _ & Hm). destruct w as [ar w]. cbn [fst snd] in *.
    pose proof (spotless_contract ls H3) as Hct. cbn [grimy_reset]. destruct k.
    - eapply wp_mono; [apply (arena_reset_keep_ok amax (top_smax bmax ls) (spotless ls) (spotless_own ls) Hct [] cs ar w us R)|].
      intros _ aw' (_ & M1 & H). destruct cs as [|c cs].
      + subst aw'. exists []. split; [|split; [exact I|exact Hm]].
        destruct R as [R1 R2 R3 R4 R5 R6 R7 R8]. constructor; auto; constructor.
      + eexists. split; [exact H|]. split; [exact I|]. cbn [fst] in M1. congruence.
    - eapply wp_mono; [apply (arena_reset_final_ok amax (top_smax bmax ls) (spotless ls) (spotless_own ls) Hct [] cs ar w us R)|].
      intros _ aw' (_ & M1 & _ & _ & H). exists []. split; [exact H|]. split; [exact I|].
      cbn [fst] in M1. congruence.
  Qed.

  (** Histories. *)
  Lemma spotless_run l ls ops : tower_ok dbg bmax amax (l :: ls) ->
    exists rs st, grimy_run dbg bmax S blank blanks (l :: ls) ops (mkCst [] (grimy_start (fun _ => Undef) (l :: ls))) = ORet rs st /\
      spotless_own (l :: ls) (c_w st) (live (c_tab st)) /\ agrees (al_mem (spotless (l :: ls)) (c_w st)) (c_tab st) (srun ops (map (option_map b_len) rs) []).
  Proof.
    intros H. pose proof (spotless_contract (l :: ls) H) as Hct.
    pose proof (run_ok amax (lv_smax l) (spotless (l :: ls)) (spotless_own (l :: ls)) (spotless_reset (l :: ls)) Hct
                  (fun k w us Ho => spotless_reset_own l ls k w us H Ho) ops
                  (mkCst [] (grimy_start (fun _ => Undef) (l :: ls))) []) as Hr.
    specialize (Hr (conj (spotless_start (l :: ls) H) (Forall2_nil _))).
    apply wp_inv in Hr. destruct Hr as (rs & st & E & Hl & Ho & Ha). exists rs, st. auto.
  Qed.

  Theorem histories_same l ls low high m ops : tower_ok dbg bmax amax (l :: ls) ->
    exists rs st0 st, grimy_run dbg bmax S blank blanks (l :: ls) ops (mkCst [] (grimy_start (fun _ => Undef) (l :: ls))) = ORet rs st0 /\
      grimy_run dbg bmax S low high (l :: ls) ops (mkCst [] (grimy_start m (l :: ls))) = ORet rs st /\
      c_tab st = c_tab st0 /\ same_tower (l :: ls) (c_w st0) (c_w st).
  Proof.
    intros H. destruct (spotless_run l ls ops H) as (rs & st0 & E & _). exists rs, st0.
    pose proof (lc_run (same_tower (l :: ls)) _ _ (proj1 (grimy_alike low high (l :: ls))) (top_smax bmax (l :: ls)) _ _ (grimy_reset_like low high (l :: ls)) ops
      (mkCst [] (grimy_start (fun _ => Undef) (l :: ls))) (mkCst [] (grimy_start m (l :: ls))) (conj eq_refl (start_same m (l :: ls)))) as L.
    unfold grimy_run in *. rewrite E in L. destruct L as (st & E' & L1 & L2). exists st. auto.
  Qed.
  Theorem histories_as_before l ls ops : tower_ok dbg bmax amax (l :: ls) ->
    exists rs st0 st, grimy_run dbg bmax S blank blanks (l :: ls) ops (mkCst [] (grimy_start (fun _ => Undef) (l :: ls))) = ORet rs st0 /\
      run (lv_smax l) (tower dbg bmax S (l :: ls)) (tower_reset dbg bmax S (l :: ls)) ops (mkCst [] (tower_start (l :: ls))) = ORet rs st /\
      c_tab st = c_tab st0 /\ same_tower (l :: ls) (c_w st0) (c_w st).
  Proof.
    intros H. destruct (spotless_run l ls ops H) as (rs & st0 & E & _). exists rs, st0.
    pose proof (lc_run (same_tower (l :: ls)) _ _ (proj1 (tower_alike (l :: ls))) (lv_smax l) _ _ (tower_reset_like (l :: ls)) ops
      (mkCst [] (grimy_start (fun _ => Undef) (l :: ls))) (mkCst [] (grimy_start (fun _ => Undef) (l :: ls))) (conj eq_refl (start_same _ (l :: ls)))) as L.
    unfold grimy_run in E. cbn [top_smax] in E. rewrite E in L. destruct L as (st & E' & L1 & L2). exists st. rewrite <- start_tower. auto.
  Qed.

  (** [Blink]s. *)
  Definition spotless_env (shared : bool) (bomb : Z -> Z -> bool) (ls : list level) : env :=
    mkEnv (TW ls) (spotless ls) (spotless_own ls) (if shared then ret tt else spotless_reset ls true) amax (top_smax bmax ls) dbg bomb
      (match ls with [] => false | _ => true end) shared.
  Lemma spotless_env_ok shared bomb ls : tower_ok dbg bmax amax ls -> ISIZE_MAX <= top_smax bmax ls -> top_smax bmax ls <= USIZE_MAX ->
    env_ok (spotless_env shared bomb ls).
  Proof.
    intros H Hs Hu. split; [apply spotless_contract; exact H|]. split; [exact Hs|]. split.
    - intros E. destruct ls as [|l ls]; [discriminate|]. apply soil_exact.
      apply (blink_exact _ dbg amax); [exact Hu|]. apply inner_contract; [apply H|apply spotless_contract, H].
    - intros w us fr Ho Hfr. cbn [spotless_env e_reset e_own e_A e_W] in *. destruct shared; [unfold wp, ret; exists us; split; [exact Ho|intros ? ? _ _; reflexivity]|].
      destruct Hfr as [Hfr| ->]; [discriminate|]. destruct ls as [|l ls]; [unfold wp, ret; exists us; split; [exact Ho|intros ? ? _ _; reflexivity]|].
      eapply wp_mono; [apply (spotless_reset_own l ls true w _ H Ho)|]. intros [] w' Ho'. exists []. split; [exact Ho'|]. intros u x [].
  Qed.
  Definition alike_blink (ls : list level) (o1 o2 : outcome (bl (TW ls)) unit) : Prop :=
    match o1 with
    | ORet _ s1 => exists s2, o2 = ORet tt s2 /\ bl_log s2 = bl_log s1 /\ bl_tab s2 = bl_tab s1 /\ bl_root s2 = bl_root s1 /\
                     same_tower ls (bl_w s1) (bl_w s2)
    | OAbort => o2 = OAbort
    | _ => False
    end.
  Lemma blink_same shared bomb ls A2 reset2 w1 w2 us fr os : tower_ok dbg bmax amax ls -> ISIZE_MAX <= top_smax bmax ls -> top_smax bmax ls <= USIZE_MAX ->
    alike (same_tower ls) (spotless ls) A2 -> like (same_tower ls) (spotless_reset ls true) reset2 ->
    spotless_own ls w1 (us ++ fr) -> shared = true \/ fr = [] -> same_tower ls w1 w2 ->
    forallb (sound (match ls with [] => false | _ => true end)) os = true ->
    alike_blink ls (grimy_blink dbg bmax S blank blanks shared bomb ls os (bl_new w1))
      (bmain A2 (if shared then ret tt else reset2) dbg bomb os (bl_new w2)).
  Proof.
    intros H Hs Hu HA Hr Ho Hfr Hw Hos. pose proof (spotless_env_ok shared bomb ls H Hs Hu) as HE.
    pose proof (no_ub _ HE fr w1 os (ex_intro _ us (conj Ho Hfr)) Hos) as U. unfold erun in U. cbn [spotless_env e_A e_reset e_dbg e_bomb e_W] in U.
    assert (Hr' : like (same_tower ls) (if shared then ret tt else spotless_reset ls true) (if shared then ret tt else reset2)).
    { destruct shared; [apply like_ret|exact Hr]. }
    pose proof (main_likes (same_tower ls) _ _ HA _ _ Hr' dbg bomb os (bl_new w1) (bl_new w2)) as L.
    assert (T : twins (same_tower ls) (bl_new w1) (bl_new w2)) by (repeat split; exact Hw). specialize (L T).
    unfold alike_blink, grimy_blink. destruct (bmain _ _ dbg bomb os (bl_new w1)) as [[] s|s| |]; try contradiction U; [|exact L].
    destruct L as (s2 & E & L1 & L2 & L3 & L4). exists s2. auto.
  Qed.
  (** ... on the topmost [BlinkAlloc] after any history of other clients, *)
  Theorem blinks_same shared bomb l ls low high m ops rs st0 st os : tower_ok dbg bmax amax (l :: ls) -> ISIZE_MAX <= lv_smax l <= USIZE_MAX ->
    forallb (sound true) os = true ->
    grimy_run dbg bmax S blank blanks (l :: ls) ops (mkCst [] (grimy_start (fun _ => Undef) (l :: ls))) = ORet rs st0 ->
    grimy_run dbg bmax S low high (l :: ls) ops (mkCst [] (grimy_start m (l :: ls))) = ORet rs st ->
    alike_blink (l :: ls) (grimy_blink dbg bmax S blank blanks shared bomb (l :: ls) os (bl_new (c_w st0)))
      (grimy_blink dbg bmax S low high shared bomb (l :: ls) os (bl_new (c_w st))).
  Proof.
    intros H Hs Hos E0 E. destruct (spotless_run l ls ops H) as (rs' & st' & E1 & Ho & _). rewrite E0 in E1. injection E1 as <- <-.
    destruct (histories_same l ls low high m ops H) as (rs' & st1 & st2 & E1 & E2 & _ & Hw). rewrite E0 in E1. injection E1 as <- <-. rewrite E in E2. injection E2 as <-.
    apply (blink_same shared bomb (l :: ls) _ _ _ _ (if shared then [] else live (c_tab st0)) (if shared then live (c_tab st0) else [])); auto.
    - apply Hs.
    - apply Hs.
    - apply grimy_alike.
    - apply grimy_reset_like.
    - destruct shared; [exact Ho|rewrite app_nil_r; exact Ho].
    - destruct shared; auto.
  Qed.
  Theorem blinks_as_before shared bomb l ls ops rs st0 st os : tower_ok dbg bmax amax (l :: ls) -> ISIZE_MAX <= lv_smax l <= USIZE_MAX ->
    forallb (sound true) os = true ->
    grimy_run dbg bmax S blank blanks (l :: ls) ops (mkCst [] (grimy_start (fun _ => Undef) (l :: ls))) = ORet rs st0 ->
    run (lv_smax l) (tower dbg bmax S (l :: ls)) (tower_reset dbg bmax S (l :: ls)) ops (mkCst [] (tower_start (l :: ls))) = ORet rs st ->
    alike_blink (l :: ls) (grimy_blink dbg bmax S blank blanks shared bomb (l :: ls) os (bl_new (c_w st0)))
      (bmain (tower dbg bmax S (l :: ls)) (if shared then ret tt else tower_reset dbg bmax S (l :: ls) true) dbg bomb os (bl_new (c_w st))).
  Proof.
    intros H Hs Hos E0 E. destruct (spotless_run l ls ops H) as (rs' & st' & E1 & Ho & _). rewrite E0 in E1. injection E1 as <- <-.
    destruct (histories_as_before l ls ops H) as (rs' & st1 & st2 & E1 & E2 & _ & Hw). rewrite E0 in E1. injection E1 as <- <-. rewrite E in E2. injection E2 as <-.
    apply (blink_same shared bomb (l :: ls) _ _ _ _ (if shared then [] else live (c_tab st0)) (if shared then live (c_tab st0) else [])); auto.
    - apply Hs.
    - apply Hs.
    - apply tower_alike.
    - apply tower_reset_like.
    - destruct shared; [exact Ho|rewrite app_nil_r; exact Ho].
    - destruct shared; auto.
  Qed.
  (** ... or directly on the bottom allocator. *)
  Theorem blinks_same_bottom bomb low high m os : ISIZE_MAX <= bmax <= USIZE_MAX -> forallb (sound false) os = true ->
    alike_blink [] (grimy_blink dbg bmax S blank blanks true bomb [] os (bl_new (mkB (fun _ => Undef) [])))
      (grimy_blink dbg bmax S low high true bomb [] os (bl_new (mkB m []))).
  Proof.
    intros Hs Hos. apply (blink_same true bomb [] (grimy dbg bmax S low high []) (ret tt) _ _ [] []); auto.
    - exact I.
    - apply Hs.
    - apply Hs.
    - exact (proj1 (grimy_alike low high [])).
    - apply like_ret.
    - exact (spotless_start [] I).
    - exact (start_same m []).
  Qed.

  Lemma agreeing_contents m0 m h j v : agreeing m0 m -> nth_error (contents m0 h) j = Some (Some v) -> nth_error (contents m h) j = Some (Some v).
  Proof.
    intros H. unfold contents. rewrite !nth_error_map. destruct (nth_error _ j); [|discriminate]. cbn. destruct (h_size h =? 0); [auto|].
    destruct (load m0 _ _) eqn:E; [|discriminate]. rewrite (agree_load _ _ _ _ _ H E). auto.
  Qed.
  Lemma same_tower_mem low high ls w0 w : same_tower ls w0 w -> agreeing (al_mem (spotless ls) w0) (al_mem (grimy dbg bmax S low high ls) w).
  Proof. induction ls as [|l ls IH]; cbn [same_tower grimy]; [intros [_ H]; exact H|]. intros [_ H]. apply IH. exact H. Qed.
  (** Every reference reads what was put in or written through it last. *)
  Theorem dirty_refs shared bomb l ls low high m ops rs st os s i h : tower_ok dbg bmax amax (l :: ls) -> ISIZE_MAX <= lv_smax l <= USIZE_MAX ->
    forallb (sound true) os = true ->
    grimy_run dbg bmax S low high (l :: ls) ops (mkCst [] (grimy_start m (l :: ls))) = ORet rs st ->
    grimy_blink dbg bmax S low high shared bomb (l :: ls) os (bl_new (c_w st)) = ORet tt s -> get i (bl_tab s) = Some h ->
    exists vs, get i (fst (especs bomb [] (bl_log s))) = Some (registered h, h_id h, vs) /\ Z.of_nat (length vs) = h_cnt h /\
      forall j v, nth_error vs j = Some (Some v) -> nth_error (contents (al_mem (grimy dbg bmax S low high (l :: ls)) (bl_w s)) h) j = Some (Some v).
  Proof.
    intros H Hs Hos E Eb Gi. destruct (histories_same l ls low high m ops H) as (rs' & st0 & st' & E0 & E' & _ & Hw). rewrite E in E'. injection E' as <- <-.
    destruct (spotless_run l ls ops H) as (rs' & st' & E1 & Ho & _). rewrite E0 in E1. injection E1 as <- <-.
    pose proof (blinks_same shared bomb l ls low high m ops rs st0 st os H Hs Hos E0 E) as L. rewrite Eb in L. unfold alike_blink in L.
    destruct (grimy_blink dbg bmax S blank blanks shared bomb (l :: ls) os (bl_new (c_w st0))) as [[] s0|s0| |] eqn:Eb0; try contradiction L; try discriminate L.
    destruct L as (s' & Es & L1 & L2 & L3 & L4). injection Es as <-.
    assert (Ha : arrives (spotless_env shared bomb (l :: ls)) (if shared then live (c_tab st0) else []) (c_w st0) os s0).
    { split; [|split; [exact Hos|exact Eb0]]. exists (if shared then [] else live (c_tab st0)). split; [|destruct shared; auto].
      destruct shared; [exact Ho|rewrite app_nil_r; exact Ho]. }
    rewrite L2 in Gi. destruct (refs_hold _ (spotless_env_ok shared bomb (l :: ls) H (proj1 Hs) (proj2 Hs)) _ _ _ _ i h Ha Gi) as (vs & V1 & V2 & V3).
    exists vs. rewrite L1. split; [exact V1|]. split; [exact V2|]. intros j v Hj. apply V3 in Hj. revert Hj. apply agreeing_contents. exact (same_tower_mem low high (l :: ls) _ _ L4).
  Qed.
End Towers.

Lemma soiled_ok E dirt : env_ok E -> env_ok (soiled E dirt).
Proof.
  intros (H1 & H2 & H3 & H4). split; [apply soil_contract; exact H1|]. split; [exact H2|]. split; [|exact H4].
  intros Hx. apply soil_exact. apply H3. exact Hx.
Qed.
