(** Facts about alignment arithmetic and memory. *)
From Verif Require Import Base.

Lemma is_pow2_spec a : is_pow2 a = true <-> exists k, 0 <= k /\ a = 2 ^ k.
Proof.
  unfold is_pow2. split.
  - intros H. apply andb_true_iff in H. destruct H as [H1 H2].
    exists (Z.log2 a). split; [apply Z.log2_nonneg | lia].
  - intros (k & Hk & ->). rewrite Z.log2_pow2 by exact Hk.
    assert (0 < 2 ^ k) by (apply Z.pow_pos_nonneg; lia). lia.
Qed.

Lemma layout_ok_facts l :
  layout_ok l ->
  (exists k, 0 <= k <= 63 /\ l_align l = 2 ^ k) /\
  0 < l_align l <= 2 ^ 63 /\ 0 <= l_size l /\ l_size l + (l_align l - 1) <= ISIZE_MAX.
Proof.
  unfold layout_ok, layout_okb. intros H.
  repeat rewrite andb_true_iff in H. destruct H as [[[Hp Ha] Hs] Hm].
  apply is_pow2_spec in Hp. destruct Hp as (k & Hk & He).
  assert (0 < 2 ^ k) by (apply Z.pow_pos_nonneg; lia).
  assert (k <= 63).
  { destruct (Z_le_gt_dec k 63) as [|G]; [assumption|exfalso].
    assert (2 ^ 64 <= 2 ^ k) by (apply Z.pow_le_mono_r; lia). lia. }
  split; [exists k; split; [lia|exact He]|]. lia.
Qed.

Lemma land_mask v k : 0 <= k -> Z.land v (2 ^ k - 1) = v mod 2 ^ k.
Proof. intros H.
  replace (2 ^ k - 1) with (Z.ones k) by (rewrite Z.ones_equiv; lia).
  apply Z.land_ones; lia.
Qed.

Lemma is_aligned_to_mod v k :
  0 <= k -> is_aligned_to v (2 ^ k) = (v mod 2 ^ k =? 0).
Proof. intros H. unfold is_aligned_to. rewrite land_mask by lia. reflexivity. Qed.

Lemma not_mask_shiftl k :
  0 <= k <= 64 -> not_usize (2 ^ k - 1) = Z.shiftl (Z.ones (64 - k)) k.
Proof.
  intros H. unfold not_usize, USIZE_MAX.
  rewrite Z.shiftl_mul_pow2 by lia. rewrite Z.ones_equiv.
  assert (E : 2 ^ 64 = 2 ^ (64 - k) * 2 ^ k) by (rewrite <- Z.pow_add_r by lia; f_equal; lia).
  rewrite E. unfold Z.pred. ring.
Qed.

Lemma align_down_spec v k :
  0 <= v <= USIZE_MAX -> 0 <= k <= 64 ->
  align_down v (2 ^ k) = v - v mod 2 ^ k.
Proof.
  intros Hv Hk. unfold align_down. rewrite not_mask_shiftl by lia.
  assert (E : Z.land v (Z.shiftl (Z.ones (64 - k)) k) = Z.ldiff v (Z.ones k)).
  { apply Z.bits_inj'. intros n Hn.
    rewrite Z.land_spec, Z.ldiff_spec, Z.shiftl_spec by lia.
    rewrite (Z.testbit_ones_nonneg k n) by lia.
    destruct (Z_lt_dec n k) as [Lt|Ge].
    - rewrite (Z.testbit_neg_r _ (n - k)) by lia.
      replace (n <? k) with true by lia. rewrite !andb_false_r. reflexivity.
    - replace (n <? k) with false by lia. rewrite andb_true_r.
      destruct (Z_lt_dec n 64) as [L64|G64].
      + rewrite Z.testbit_ones_nonneg by lia.
        replace (n - k <? 64 - k) with true by lia. apply andb_true_r.
      + rewrite Z.testbit_ones_nonneg by lia.
        replace (n - k <? 64 - k) with false by lia. rewrite andb_false_r.
        symmetry. unfold USIZE_MAX in Hv.
        destruct (Z.eq_dec v 0) as [->|Nz]; [apply Z.bits_0|].
        apply Z.bits_above_log2; [lia|].
        assert (Z.log2 v < 64) by (apply Z.log2_lt_pow2; lia). lia. }
  rewrite E. rewrite Z.ldiff_ones_r by lia.
  rewrite Z.shiftl_mul_pow2, Z.shiftr_div_pow2 by lia.
  assert (0 < 2 ^ k) by (apply Z.pow_pos_nonneg; lia).
  pose proof (Z.div_mod v (2 ^ k)) as D. lia.
Qed.

Lemma align_up_spec v k :
  0 <= v -> 0 <= k <= 63 ->
  align_up v (2 ^ k) =
    if v + (2 ^ k - 1) <=? USIZE_MAX
    then Some (v + (2 ^ k - 1) - (v + (2 ^ k - 1)) mod 2 ^ k) else None.
Proof.
  intros Hv Hk. unfold align_up, checked_add.
  assert (0 < 2 ^ k) by (apply Z.pow_pos_nonneg; lia).
  destruct (Z.leb_spec (v + (2 ^ k - 1)) USIZE_MAX) as [L|G]; [|reflexivity].
  f_equal. apply (align_down_spec (v + (2 ^ k - 1)) k); lia.
Qed.

(** [align_up] returns the least multiple of the alignment not below [v]. *)
Lemma align_up_some v k r :
  0 <= v -> 0 <= k <= 63 -> align_up v (2 ^ k) = Some r ->
  v <= r < v + 2 ^ k /\ r mod 2 ^ k = 0 /\ r <= USIZE_MAX.
Proof.
  intros Hv Hk. rewrite align_up_spec by lia.
  assert (Hp : 0 < 2 ^ k) by (apply Z.pow_pos_nonneg; lia).
  destruct (Z.leb_spec (v + (2 ^ k - 1)) USIZE_MAX) as [L|G]; intros E; inversion E as [E']; clear E.
  pose proof (Z.mod_pos_bound (v + (2 ^ k - 1)) (2 ^ k) Hp) as B.
  repeat split; try lia.
  rewrite Zminus_mod, Z.mod_mod, Z.sub_diag by lia. apply Z.mod_0_l; lia.
Qed.

Lemma next_power_of_two_spec n :
  1 <= n -> n <= next_power_of_two n /\ is_pow2 (next_power_of_two n) = true /\
            (1 < n -> next_power_of_two n < 2 * n).
Proof.
  intros H. unfold next_power_of_two. repeat split.
  - destruct (Z.eq_dec n 1) as [->|N]; [simpl; lia|].
    apply Z.log2_up_spec; lia.
  - apply is_pow2_spec. exists (Z.log2_up n). split; [apply Z.log2_up_nonneg|reflexivity].
  - intros H1. pose proof (Z.log2_up_spec n H1) as [L _].
    pose proof (Z.log2_up_pos n H1) as P.
    replace (Z.log2_up n) with (Z.succ (Z.pred (Z.log2_up n))) by lia.
    rewrite Z.pow_succ_r by lia. lia.
Qed.

(** ** Memory facts *)

Lemma all_cells_spec f m a n :
  all_cells f m a n = true <-> forall x, a <= x < a + Z.of_nat n -> f (m x) = true.
Proof.
  revert a. induction n as [|n IH]; intros a; cbn [all_cells].
  - split; [intros _ x Hx; lia | reflexivity].
  - rewrite andb_true_iff, IH. split.
    + intros [H1 H2] x Hx. destruct (Z.eq_dec x a) as [->|N]; [exact H1|apply H2; lia].
    + intros H. split; [apply H; lia| intros x Hx; apply H; lia].
Qed.

Lemma load_store_same m a n v : 1 <= n -> load (store m a n v) a n = Some v.
Proof.
  intros Hn. unfold load.
  assert (Ea : store m a n v a = Head v).
  { unfold store. replace ((a <=? a) && (a <? a + n)) with true by lia.
    rewrite Z.eqb_refl. reflexivity. }
  rewrite Ea.
  replace (all_cells is_tail (store m a n v) (a + 1) (Z.to_nat (n - 1))) with true; [reflexivity|].
  symmetry. apply all_cells_spec. intros x Hx.
  unfold store. replace ((a <=? x) && (x <? a + n)) with true by lia.
  replace (x =? a) with false by lia. reflexivity.
Qed.

(** A load depends only on the bytes of the object. *)
Lemma load_ext m m' a n :
  1 <= n -> (forall x, a <= x < a + n -> m' x = m x) -> load m' a n = load m a n.
Proof.
  intros Hn H. unfold load. rewrite (H a) by lia.
  destruct (m a); try reflexivity.
  replace (all_cells is_tail m' (a + 1) (Z.to_nat (n - 1)))
    with (all_cells is_tail m (a + 1) (Z.to_nat (n - 1))); [reflexivity|].
  apply eq_true_iff_eq. rewrite !all_cells_spec.
  split; intros G x Hx; specialize (G x Hx); rewrite H in * by lia; exact G.
Qed.

Lemma store_other m a n v x : x < a \/ a + n <= x -> store m a n v x = m x.
Proof. intros H. unfold store. replace ((a <=? x) && (x <? a + n)) with false by lia. reflexivity. Qed.

Lemma load_store_other m a n v b k :
  1 <= k -> b + k <= a \/ a + n <= b -> load (store m a n v) b k = load m b k.
Proof. intros Hk H. apply load_ext; [exact Hk|]. intros x Hx. apply store_other. lia. Qed.

Lemma copy_other m s d n x : x < d \/ d + n <= x -> copy m s d n x = m x.
Proof. intros H. unfold copy. replace ((d <=? x) && (x <? d + n)) with false by lia. reflexivity. Qed.

Lemma copy_in m s d n x : d <= x < d + n -> copy m s d n x = m (s + (x - d)).
Proof. intros H. unfold copy. replace ((d <=? x) && (x <? d + n)) with true by lia. reflexivity. Qed.

Lemma fill_other m a n c x : x < a \/ a + n <= x -> fill m a n c x = m x.
Proof. intros H. unfold fill. replace ((a <=? x) && (x <? a + n)) with false by lia. reflexivity. Qed.

Lemma fill_in m a n c x : a <= x < a + n -> fill m a n c x = c.
Proof. intros H. unfold fill. replace ((a <=? x) && (x <? a + n)) with true by lia. reflexivity. Qed.

Lemma write_cells_other m a cs x :
  x < a \/ a + Z.of_nat (length cs) <= x -> write_cells m a cs x = m x.
Proof. intros H. unfold write_cells.
  replace ((a <=? x) && (x <? a + Z.of_nat (length cs))) with false by lia. reflexivity. Qed.

(** ** Bind inversion *)

Lemma bind_ret {W A B} (a : A) (f : A -> M W B) w : bind (ret a) f w = f a w.
Proof. reflexivity. Qed.

Lemma bind_eq {W A B} (m : M W A) (f : A -> M W B) w a w' :
  m w = ORet a w' -> bind m f w = f a w'.
Proof. intros H. unfold bind. rewrite H. reflexivity. Qed.
