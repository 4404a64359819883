(** What [from_iter] does with the elements it takes, seen from the log alone. *)
From Verif Require Import Base BaseFacts Alloc AllocFacts History HistoryFacts Blink BlinkInv BlinkReset BlinkOps BlinkIter
  BlinkMain.

(** The iterator does nothing but yield: it does not use the [Blink] itself. *)
Fixpoint plain (it : script) : bool :=
  match it with
  | SEnd _ _ => true
  | SNext _ _ BNil _ rest => plain rest
  | SNext _ _ (BCons _ _) _ _ => false
  end.

Section Does.
  Context {W : Type} (A : Allocator W) (alloc_reset : M W unit) (dbg : bool) (bomb : Z -> Z -> bool).

  (** Whenever [m] returns. *)
  Definition does {B} (m : M (bl W) B) (s : bl W) (Q : B -> bl W -> Prop) : Prop :=
    match m s with ORet b s' => Q b s' | _ => True end.
  Lemma does_bind {B C} (m : M (bl W) B) (f : B -> M (bl W) C) s Q :
    does m s (fun b s' => does (f b) s' Q) -> does (bind m f) s Q.
  Proof. unfold does, bind. destruct (m s); auto. Qed.
  Lemma does_ret {B} (b : B) s (Q : B -> bl W -> Prop) : Q b s -> does (ret b) s Q.
  Proof. auto. Qed.
  Lemma does_mono {B} (m : M (bl W) B) s (Q Q' : B -> bl W -> Prop) :
    does m s Q -> (forall b s', Q b s' -> Q' b s') -> does m s Q'.
  Proof. unfold does. destruct (m s); auto. Qed.
  Lemma does_log e s (Q : unit -> bl W -> Prop) : Q tt (mkBl (bl_w s) (bl_root s) (bl_tab s) (bl_log s ++ [e])) -> does (log e) s Q.
  Proof. auto. Qed.

  Definition same (s s' : bl W) : Prop := bl_tab s' = bl_tab s /\ bl_log s' = bl_log s.
  Lemma same_refl s : same s s. Proof. split; reflexivity. Qed.
  Lemma same_trans s s1 s2 : same s s1 -> same s1 s2 -> same s s2.
  Proof. intros [] []. split; congruence. Qed.
  Definition quiet {B} (m : M (bl W) B) : Prop := forall s, does m s (fun _ s' => same s s').

  Lemma quiet_bind {B C} (m : M (bl W) B) (f : B -> M (bl W) C) : quiet m -> (forall b, quiet (f b)) -> quiet (bind m f).
  Proof.
    intros Hm Hf s. apply does_bind. eapply does_mono; [apply Hm|].
    intros b s' H1. eapply does_mono; [apply Hf|]. intros c s2 H2. exact (same_trans _ _ _ H1 H2).
  Qed.
  Lemma does_quiet {B C} (m : M (bl W) B) (f : B -> M (bl W) C) s (Q : C -> bl W -> Prop) :
    quiet m -> (forall b s', same s s' -> does (f b) s' Q) -> does (bind m f) s Q.
  Proof. intros Hm Hf. apply does_bind. eapply does_mono; [apply Hm|]. exact Hf. Qed.
  Lemma quiet_ret {B} (b : B) : quiet (ret b). Proof. intros s. apply same_refl. Qed.
  Lemma quiet_ub {B} : quiet (ub : M (bl W) B). Proof. intros s. exact I. Qed.
  Lemma quiet_panic {B} : quiet (panic : M (bl W) B). Proof. intros s. exact I. Qed.
  Lemma quiet_on_alloc {B} (m : M W B) : quiet (on_alloc m).
  Proof. intros s. unfold does, on_alloc. destruct (m (bl_w s)); auto. split; reflexivity. Qed.
  Lemma quiet_store a n al v : quiet (store_at A a n al v).
  Proof. unfold store_at. destruct (_ =? _); [apply quiet_on_alloc|apply quiet_ub]. Qed.
  Lemma quiet_write_result T r a o : quiet (write_result A T r a o).
  Proof.
    unfold write_result. destruct (_ =? _); [|apply quiet_ub]. apply quiet_bind; [apply quiet_on_alloc|].
    intros []. destruct o; [apply quiet_store|apply quiet_ret].
  Qed.
  Lemma quiet_write_drops p n g nx : quiet (write_drops A p n g nx).
  Proof. unfold write_drops. apply quiet_bind; [apply quiet_store|intros []]. apply quiet_bind; [apply quiet_store|intros []]. apply quiet_store. Qed.
  Lemma quiet_add p : quiet (drop_list_add A p).
  Proof.
    unfold drop_list_add. apply quiet_bind; [intros s; apply same_refl|intros r]. apply quiet_bind; [intros s; split; reflexivity|intros []].
    apply quiet_bind; [apply quiet_store|intros []]. intros s. split; reflexivity.
  Qed.
  Lemma quiet_assert b : quiet (debug_assert dbg b).
  Proof. unfold debug_assert. destruct (dbg && negb b); [apply quiet_panic|apply quiet_ret]. Qed.
  Lemma quiet_init T p n : quiet (init_slice A dbg T p n).
  Proof. unfold init_slice. apply quiet_bind; [apply quiet_assert|intros []]. apply quiet_write_drops. Qed.

  (** ** [flush] *)
  Lemma flush_does k T g give s : gu_count g = Z.of_nat (length (gu_vals g)) -> (gu_ptr g = None -> gu_vals g = []) ->
    does (flush_guard A dbg k T g give) s
      (fun _ s' => bl_log s' = bl_log s ++ flush_log (dropping k T) T (gu_vals g) give).
  Proof.
    intros Hc Hn. unfold flush_guard, flush_log. destruct (gu_ptr g) as [u|].
    - destruct (Z.eqb_spec (gu_count g) 0) as [E0|E0].
      + destruct (gu_vals g) as [|v vs]; [|cbn in Hc; lia]. cbn [is_nil]. apply does_quiet; [apply quiet_on_alloc|].
        intros [] s' [_ L]. destruct give; [|apply does_ret; rewrite app_nil_r; exact L].
        unfold hand_out, does. cbn. rewrite L. reflexivity.
      + destruct (gu_vals g) as [|v vs] eqn:Ev; [cbn in Hc; lia|]. cbn [is_nil]. rewrite <- Ev.
        destruct (dropping k T) eqn:Ed.
        * apply does_quiet; [apply quiet_init|]. intros [] s1 [_ L1]. apply does_quiet; [apply quiet_add|]. intros [] s2 [_ L2].
          unfold hand_out, does. cbn. rewrite L2, L1. reflexivity.
        * reflexivity.
    - rewrite (Hn eq_refl). cbn [is_nil]. destruct give; [reflexivity|]. apply does_ret. rewrite app_nil_r. reflexivity.
  Qed.

  (** ** Calls of [next] *)
  Definition yielders (its : list (Z * option Z * M (bl W) (option Z))) : Prop := Forall (fun x => quiet (snd x)) its.
  Notation ys_log T s s' ys := (bl_log s' = bl_log s ++ map (EYield (t_id T)) ys).

  Lemma plain_yielders it : plain it = true -> yielders (fst (biter A alloc_reset dbg bomb it)).
  Proof.
    induction it as [|lo up body out rest IH]; intros H; [constructor|]. destruct body; [|discriminate]. cbn [biter fst].
    constructor; [|apply IH; exact H]. cbn [snd brun]. apply quiet_bind; [apply quiet_ret|intros []].
    destruct out; [apply quiet_ret|apply quiet_ret|apply quiet_panic].
  Qed.

  Lemma next_does T (it : iter (W := W)) s : yielders (fst it) ->
    does (next T it) s (fun r s' => yielders (fst (snd r)) /\ ys_log T s s' (opt_list (fst r))).
  Proof.
    intros H. unfold next. destruct it as [[|[h m] its] last]; cbn [fst snd] in *.
    - apply does_ret. cbn. rewrite app_nil_r. auto.
    - inversion H as [|? ? Hm Hr]; subst. apply does_quiet; [exact Hm|]. intros [v|] s' [_ L].
      + apply does_bind, does_log, does_ret. cbn. rewrite L. auto.
      + apply does_ret. cbn. rewrite app_nil_r. auto.
  Qed.

  Definition gfine (g : guard) : Prop := gu_count g = Z.of_nat (length (gu_vals g)) /\ (gu_ptr g = None -> gu_vals g = []).

  Lemma guarded_does k T (it : iter (W := W)) g s : yielders (fst it) ->
    does (guarded A dbg k T g (next T it)) s (fun r s' => yielders (fst (snd r)) /\ ys_log T s s' (opt_list (fst r))).
  Proof.
    intros Hy. pose proof (next_does T it s Hy) as H. unfold guarded, on_unwind, does in *. destruct (next T it s) as [r s'|s'| |]; auto.
    destruct ((if dropping k T then flush_guard A dbg k T g false else ret tt) s'); auto.
  Qed.

  Definition filled (T : ty) (vals : list Z) (s : bl W) (g' : guard) (it' : iter (W := W)) (s' : bl W) : Prop :=
    yielders (fst it') /\ gfine g' /\ exists ys, gu_vals g' = vals ++ ys /\ ys_log T s s' ys.

  Lemma fill_loop_does k T a lim : forall its last g s, yielders its -> gfine g -> gu_ptr g <> None ->
    does (fill_loop A dbg k T a lim its last g) s (fun r s' => filled T (gu_vals g) s (fst r) (snd r) s').
  Proof.
    assert (Stop : forall g (its : list (Z * option Z * M (bl W) (option Z))) last p n s s1, yielders its -> gfine g ->
      ys_log T s s1 [] ->
      does ((if t_niche T then on_alloc (mfill A p n Undef) else ret tt) ;;; ret (g, (its, last))) s1
        (fun r s' => filled T (gu_vals g) s (fst r) (snd r) s')).
    { intros g its last p n s s1 Hy Hg L. apply does_quiet; [destruct (t_niche T); [apply quiet_on_alloc|apply quiet_ret]|].
      intros [] s2 [_ L2]. apply does_ret. split; [exact Hy|]. split; [exact Hg|]. exists []. rewrite L2, L, app_nil_r. auto. }
    induction its as [|x its IH]; intros last g s Hy Hg Hp; cbn [fill_loop]; destruct (gu_count g <? lim).
    1: apply Stop; auto; cbn; rewrite app_nil_r; reflexivity.
    1,3: apply does_ret; split; [exact Hy|]; split; [exact Hg|]; exists []; cbn; rewrite !app_nil_r; auto.
    apply does_bind. eapply does_mono; [apply (guarded_does k T (x :: its, last) g s Hy)|].
    intros [[v|] it'] s1 [Hy' L1]; cbn [fst snd opt_list] in *; inversion Hy as [|? ? _ Hy2]; subst.
    - apply does_quiet; [apply quiet_store|]. intros [] s2 [_ L2]. set (g' := mkGu _ _ _ _ _).
      assert (Hg' : gfine g') by (destruct Hg; split; cbn; [rewrite app_length; cbn; lia|intros; congruence]).
      eapply does_mono; [apply (IH last g' s2 Hy2 Hg' Hp)|]. intros r s3 (F1 & F2 & ys & F3 & F4).
      split; [exact F1|]. split; [exact F2|]. exists (v :: ys). cbn in F3. rewrite F3, F4, L2, L1, <- !app_assoc. auto.
    - apply Stop; auto.
  Qed.

  Lemma fill_guard_does k T size one (it : iter (W := W)) g s : yielders (fst it) -> gfine g ->
    does (fill_guard A dbg k T size one it g) s
      (fun r s' => let '(g', it', one', e) := r in
         match e with
         | Some _ => g' = g /\ one' = one /\ it' = it /\ bl_log s' = bl_log s
         | None => filled T (gu_vals g ++ opt_list one) s g' it' s'
         end).
  Proof.
    intros Hy Hg. unfold fill_guard. destruct (if dropping k T then _ else _) as [lay|]; [|apply does_ret; auto].
    apply does_quiet; [apply quiet_on_alloc|]. intros [b|] s1 [_ L1]; [|apply does_ret; auto].
    apply does_quiet; [destruct (_ <? _); [apply quiet_ret|apply quiet_assert]|]. intros [] s2 [_ L2].
    set (cap := if _ <? _ then _ else _). set (u := mkU _ _ _). cbn [gu_count gu_ptr gu_vals].
    assert (Hl : ys_log T s s2 []) by (cbn; rewrite app_nil_r; congruence).
    assert (Rest : forall g' s3, gfine g' -> gu_ptr g' <> None -> gu_vals g' = gu_vals g ++ opt_list one -> same s2 s3 ->
      does (r <- fill_loop A dbg k T (b_ptr b + array_off (dropping k T) T) (if dropping k T then cap else size) (fst it) (snd it) g' ;;
            ret (fst r, snd r, @None Z, @None (option Layout))) s3
        (fun r s' => let '(g', it', one', e) := r in
         match e with
         | Some _ => g' = g /\ one' = one /\ it' = it /\ bl_log s' = bl_log s
         | None => filled T (gu_vals g ++ opt_list one) s g' it' s'
         end)).
    { clear u. intros g' s3 G1 G2 G3 [_ L3]. apply does_bind. eapply does_mono; [apply (fill_loop_does k T _ _ (fst it) (snd it) g' s3 Hy G1 G2)|].
      intros r s4 (F1 & F2 & ys & F3 & F4). apply does_ret. split; [exact F1|]. split; [exact F2|]. exists ys.
      rewrite F3, F4, L3, Hl, G3. cbn. rewrite app_nil_r. auto. }
    destruct Hg as [Hg1 Hg2]. apply does_bind. destruct one as [v|].
    - apply does_quiet; [apply quiet_assert|]. intros [] s3 S3. apply does_quiet; [apply quiet_store|]. intros [] s4 S4.
      apply does_ret. apply Rest.
      + split; cbn; [rewrite app_length; cbn; lia|discriminate].
      + discriminate.
      + reflexivity.
      + eapply same_trans; eassumption.
    - apply does_ret. apply Rest.
      + split; cbn; [exact Hg1|discriminate].
      + discriminate.
      + cbn. rewrite app_nil_r. reflexivity.
      + apply same_refl.
  Qed.

  (** ** [from_iter] of sized elements: [ys] are the elements taken. *)
  Definition accounts (k : entry) (tr : oom) (T : ty) (pre : list Z) (s s' : bl W) : Prop :=
    exists ys,
      bl_log s' = bl_log s ++ map (EYield (t_id T)) ys ++ flush_log (dropping k T) T (pre ++ ys) true \/
      (tr = Try /\ exists vals one, pre ++ ys = vals ++ opt_list one /\
       bl_log s' = bl_log s ++ map (EYield (t_id T)) ys ++ flush_log (dropping k T) T vals true ++ EFail :: map (EBack (t_id T)) (opt_list one)).

  Lemma accounts_after k tr T pre ys s s1 s' : ys_log T s s1 ys -> accounts k tr T (pre ++ ys) s1 s' -> accounts k tr T pre s s'.
  Proof.
    intros L [zs H]. exists (ys ++ zs). destruct H as [H|(Ht & vals & one & E & H)].
    - left. rewrite H, L, map_app, <- !app_assoc. reflexivity.
    - right. split; [exact Ht|]. exists vals, one. rewrite <- E, app_assoc. split; [reflexivity|].
      rewrite H, L, map_app, <- !app_assoc. reflexivity.
  Qed.

  Lemma failed_does k tr T g one why s : gfine g ->
    does (from_iter_failed A dbg bomb k tr T g one why) s
      (fun _ s' => accounts k tr T (gu_vals g ++ opt_list one) s s').
  Proof.
    intros [G1 G2]. unfold from_iter_failed. destruct (tries tr) eqn:Et.
    - apply does_bind. eapply does_mono; [apply (flush_does k T g true s G1 G2)|]. intros [] s1 L1.
      apply does_bind, does_log. cbn.
      assert (X : forall s2, bl_log s2 = (bl_log s1 ++ [EFail]) ++ map (EBack (t_id T)) (opt_list one) -> accounts k tr T (gu_vals g ++ opt_list one) s s2).
      { intros s2 L2. exists []. right. split; [destruct tr; [reflexivity|discriminate..]|]. exists (gu_vals g), one. rewrite app_nil_r. split; [reflexivity|].
        rewrite L2, L1, <- !app_assoc. reflexivity. }
      destruct one as [v|]; [apply does_log|apply does_ret]; apply X; cbn; [|rewrite app_nil_r]; reflexivity.
    - apply does_bind. eapply does_mono; [apply (flush_does k T g false s G1 G2)|]. intros [] s1 L1.
      assert (Go : does (match one with Some v => drop_unwinding bomb T v | None => ret tt end ;;; panic) s1
        (fun (_ : unit) s' => accounts k tr T (gu_vals g ++ opt_list one) s s')).
      { apply does_bind. unfold drop_unwinding. destruct one as [v|]; [|exact I]. destruct (t_drop T); [|exact I].
        apply does_bind, does_log. destruct (bomb (t_id T) v); exact I. }
      destruct why; [destruct tr; [exact Go|exact I|exact Go]|exact Go].
  Qed.

  (** A call of [size_hint] changes nothing when it returns. *)
  Lemma ask_does {C} k T (it : iter (W := W)) g h (f : unit -> M (bl W) C) s (Q : C -> bl W -> Prop) :
    does (f tt) s Q -> does (bind (guarded A dbg k T g (on_unwind (ask_hint it) h)) f) s Q.
  Proof.
    intros H. unfold does, bind, guarded, on_unwind, ask_hint in *. destruct (_ =? _); cbn [panic ret]; [|exact H].
    destruct (h s) as [[] s1| | |]; try exact I.
    destruct ((if dropping k T then flush_guard A dbg k T g false else ret tt) s1); exact I.
  Qed.
  Lemma ask_plain {C} k T (it : iter (W := W)) g (f : unit -> M (bl W) C) s (Q : C -> bl W -> Prop) :
    does (f tt) s Q -> does (bind (guarded A dbg k T g (ask_hint it)) f) s Q.
  Proof.
    intros H. unfold does, bind, guarded, on_unwind, ask_hint in *. destruct (_ =? _); cbn [panic ret]; [|exact H].
    destruct ((if dropping k T then flush_guard A dbg k T g false else ret tt) s); exact I.
  Qed.

  Lemma loop_does k tr T : forall fuel one (it : iter (W := W)) g s, yielders (fst it) -> gfine g ->
    does (from_iter_loop A dbg bomb fuel k tr T one it g) s (fun _ s' => accounts k tr T (gu_vals g ++ [one]) s s').
  Proof.
    induction fuel as [|fuel IH]; intros one it g s Hy Hg; [exact I|]. cbn [from_iter_loop]. apply ask_does.
    destruct (size_hint_and_one _ _ _) as [size|]; [|apply (failed_does k tr T g (Some one)); exact Hg].
    apply does_bind. eapply does_mono; [apply (fill_guard_does k T size (Some one) it g s Hy Hg)|].
    intros [[[g1 it1] one1] e] s1 H. destruct e as [why|].
    - destruct H as (-> & -> & -> & L). eapply does_mono; [apply (failed_does k tr T g (Some one) why s1 Hg)|].
      intros [] s2 Ha. eapply (accounts_after _ _ _ _ []); [cbn; rewrite app_nil_r; exact L|]. rewrite app_nil_r. exact Ha.
    - destruct H as (Y1 & G1 & ys & V1 & L1). cbn [opt_list] in V1. apply does_bind. eapply does_mono; [apply (guarded_does k T it1 g1 s1 Y1)|].
      intros [[v|] it2] s2 [Y2 L2]; cbn [fst snd opt_list] in *.
      + eapply does_mono; [apply (IH v it2 g1 s2 Y2 G1)|]. intros [] s3 Ha.
        eapply (accounts_after _ _ _ _ (ys ++ [v])); [|rewrite app_assoc, <- V1; exact Ha].
        rewrite L2, L1, map_app, <- !app_assoc. reflexivity.
      + destruct G1 as [C1 C2]. eapply does_mono; [apply (flush_does k T g1 true s2 C1 C2)|]. intros [] s3 L3.
        exists ys. left. rewrite L3, L2, L1, V1. cbn. rewrite app_nil_r, <- !app_assoc. reflexivity.
  Qed.

  Lemma sized_does k tr T (it : iter (W := W)) s : yielders (fst it) ->
    does (from_iter_sized A dbg bomb k tr T it) s (fun _ s' => accounts k tr T [] s s').
  Proof.
    intros Hy. unfold from_iter_sized. set (g := mkGu None 0 0 _ []). assert (Hg : gfine g) by (split; reflexivity).
    apply ask_plain. apply does_bind. apply (does_mono _ _ (fun r s' => let '(g', it', one', e) := r in
         match e with
         | Some _ => g' = g /\ it' = it /\ bl_log s' = bl_log s
         | None => filled T [] s g' it' s'
         end)).
    { destruct (_ =? 0).
      - apply does_ret. split; [exact Hy|]. split; [exact Hg|]. exists []. cbn. rewrite app_nil_r. auto.
      - eapply does_mono; [apply (fill_guard_does k T _ None it g s Hy Hg)|].
        intros [[[g1 it1] one1] e] s1 H. destruct e; [|exact H]. destruct H as (H1 & _ & H2). auto. }
    intros [[[g1 it1] one1] e] s1 H. destruct e as [why|].
    - destruct H as (-> & -> & L). eapply does_mono; [apply (failed_does k tr T g None why s1 Hg)|].
      intros [] s2 Ha. eapply (accounts_after _ _ _ _ []); [cbn; rewrite app_nil_r; exact L|]. exact Ha.
    - destruct H as (Y1 & G1 & ys & V1 & L1). cbn [app] in V1. apply does_bind. eapply does_mono; [apply (guarded_does k T it1 g1 s1 Y1)|].
      intros [[v|] it2] s2 [Y2 L2]; cbn [fst snd opt_list] in *.
      + eapply does_mono; [apply (loop_does k tr T _ v it2 g1 s2 Y2 G1)|]. intros [] s3 Ha.
        eapply (accounts_after _ _ _ _ (ys ++ [v])); [|cbn [app]; rewrite <- V1; exact Ha].
        rewrite L2, L1, map_app, <- !app_assoc. reflexivity.
      + destruct G1 as [C1 C2]. eapply does_mono; [apply (flush_does k T g1 true s2 C1 C2)|]. intros [] s3 L3.
        exists ys. left. rewrite L3, L2, L1, V1. cbn. rewrite app_nil_r, <- !app_assoc. reflexivity.
  Qed.

  (** ** Emplacement *)
  Definition unchanged (s s' : bl W) : Prop := bl_root s' = bl_root s /\ bl_tab s' = bl_tab s /\ bl_log s' = bl_log s.
  Definition still {B} (m : M (bl W) B) : Prop :=
    forall s, match m s with ORet _ s' | OPanic s' => unchanged s s' | _ => True end.
  Lemma still_ret {B} (b : B) : still (ret b). Proof. intros s. repeat split. Qed.
  Lemma still_on_alloc {B} (m : M W B) : still (on_alloc m).
  Proof. intros s. unfold on_alloc. destruct (m (bl_w s)); repeat split. Qed.
  Lemma still_bind {B C} (m : M (bl W) B) (f : B -> M (bl W) C) : still m -> (forall b, still (f b)) -> still (bind m f).
  Proof.
    intros Hm Hf s. unfold bind. specialize (Hm s). destruct (m s) as [b s1|s1| |]; auto. specialize (Hf b s1).
    destruct (f b s1) as [c s2|s2| |]; auto; destruct Hm as (? & ? & ?), Hf as (? & ? & ?); repeat split; congruence.
  Qed.
  Lemma still_store a n al v : still (store_at A a n al v).
  Proof. unfold store_at. destruct (_ =? _); [apply still_on_alloc|intros s; exact I]. Qed.
  Lemma still_write_result T r a o : still (write_result A T r a o).
  Proof.
    unfold write_result. destruct (_ =? _); [|intros s; exact I]. apply still_bind; [apply still_on_alloc|].
    intros []. destruct o; [apply still_store|apply still_ret].
  Qed.
  Lemma still_write_drops p n g nx : still (write_drops A p n g nx).
  Proof. unfold write_drops. apply still_bind; [apply still_store|intros []]. apply still_bind; [apply still_store|intros []]. apply still_store. Qed.
  Lemma does_still {B C} (m : M (bl W) B) (f : B -> M (bl W) C) s (Q : C -> bl W -> Prop) :
    still m -> (forall b s', unchanged s s' -> does (f b) s' Q) -> does (bind m f) s Q.
  Proof. intros Hm Hf. unfold does, bind. specialize (Hm s). destruct (m s) as [b s1| | |]; auto. apply Hf. exact Hm. Qed.
  Lemma unchanged_trans s s1 s2 : unchanged s s1 -> unchanged s1 s2 -> unchanged s s2.
  Proof. intros (? & ? & ?) (? & ? & ?). repeat split; congruence. Qed.

  (** A closure returns [Err]: nothing but what the closure itself did. *)
  Definition refused (tr : oom) (body : M (bl W) unit) (x : Z) (s s' : bl W) : Prop :=
    (exists s1 s2, unchanged s s1 /\ body s1 = ORet tt s2 /\
       bl_root s' = bl_root s2 /\ bl_tab s' = bl_tab s2 /\ bl_log s' = bl_log s2 ++ [EErr x]) \/
    (tr = Try /\ bl_root s' = bl_root s /\ bl_tab s' = bl_tab s /\ bl_log s' = bl_log s ++ [EFail]).

  Lemma emplace_err k tr T r e body x s :
    does (emplace A bomb k tr T r e body (CErr x)) s (fun _ s' => refused tr body x s s').
  Proof.
    unfold emplace. assert (Fail : forall s1, unchanged s s1 -> does (alloc_failed tr (ret tt) (ret tt)) s1 (fun _ s' => refused tr body x s s')).
    { intros s1 (U1 & U2 & U3). unfold alloc_failed. destruct tr; [|exact I|exact I]. apply does_bind, does_log, does_ret. right. cbn. rewrite U3. auto. }
    assert (Body : forall (f : option Z + Z -> M (bl W) unit) s1, unchanged s s1 ->
      (forall s2, body s1 = ORet tt s2 -> does (f (inr x)) s2 (fun _ s' => refused tr body x s s')) ->
      does (bind (closure body (CErr x)) f) s1 (fun _ s' => refused tr body x s s')).
    { intros f s1 _ Hf. unfold closure, does, bind in *. destruct (body s1) as [[] s2| | |]; auto. cbn. apply Hf. reflexivity. }
    assert (End : forall p lay s1 s2 s3, unchanged s s1 -> body s1 = ORet tt s2 -> unchanged s2 s3 ->
      does (on_alloc (al_deallocate A p lay) ;;; log (EErr x)) s3 (fun _ s' => refused tr body x s s')).
    { intros p lay s1 s2 s3 U1 E U2. apply does_still; [apply still_on_alloc|]. intros [] s4 U3. apply does_log.
      destruct (unchanged_trans _ _ _ U2 U3) as (V1 & V2 & V3). left. exists s1, s2. cbn. rewrite V3. auto. }
    destruct (negb (t_drop T) || no_drop k).
    - unfold emplace_no_drop. apply does_still; [apply still_on_alloc|]. intros [b|] s1 U1; [|apply Fail; exact U1].
      apply Body; [exact U1|]. intros s2 E. apply does_still; [apply still_write_result|]. intros [] s3 U3.
      eapply End; eassumption.
    - unfold emplace_drop. apply does_still; [apply still_on_alloc|]. intros [b|] s1 U1; [|apply Fail; exact U1].
      apply Body; [exact U1|]. intros s2 E. apply does_still; [apply still_write_result|]. intros [] s3 U3.
      apply does_still; [apply still_write_drops|]. intros [] s4 U4. eapply End; [exact U1|exact E|]. eapply unchanged_trans; eassumption.
  Qed.
End Does.
