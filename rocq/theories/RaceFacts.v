(** Race freedom of the concurrent machine: who knows of which accesses. *)
From Coq Require Import Permutation.
From Verif Require Import Base BaseFacts Alloc AllocFacts Arena ArenaFacts ArenaInv ArenaOps
  BlinkAlloc BlinkFacts History HistoryFacts Setup SetupFacts SetupOps Conc ConcFacts ConcSteps ConcProps Race.

(** ** Knowing of an action *)

Definition knows (P : action -> Prop) (tr : list action) (i : nat) : Prop :=
  exists k a, nth_error tr k = Some a /\ P a /\ (i = k \/ hb tr i k).
Definition by_ (t : nat) (a : action) : Prop := actor a = Some t \/ a = Excl.
Definition wrel (a : action) : Prop := (exists t, a = WUnlock t) \/ a = Excl.
Definition rrel (a : action) : Prop := (exists t, a = RUnlock t) \/ a = Excl.
Definition hrel (h : nat) (a : action) : Prop := (exists t, a = Give t h) \/ a = Excl.

Lemma nth_app_some {T} (l l' : list T) i x : nth_error l i = Some x -> nth_error (l ++ l') i = Some x.
Proof. intros H. rewrite nth_error_app1; [exact H|]. apply nth_error_Some. congruence. Qed.

Lemma hb_app tr l i j : hb tr i j -> hb (tr ++ l) i j.
Proof.
  induction 1 as [i j a b L Ha Hb H|i j k H1 IH1 H2 IH2].
  - apply (hb_one _ i j a b); auto using nth_app_some.
  - eapply hb_trans; eauto.
Qed.

Lemma knows_app P tr l i : knows P tr i -> knows P (tr ++ l) i.
Proof.
  intros (k & a & H1 & H2 & H3). exists k, a. split; [apply nth_app_some; exact H1|]. split; [exact H2|].
  destruct H3 as [H3|H3]; [left; exact H3|right; apply hb_app; exact H3].
Qed.

Lemma nth_last {T} (l : list T) x : nth_error (l ++ [x]) (length l) = Some x.
Proof. rewrite nth_error_app2, Nat.sub_diag; [reflexivity|lia]. Qed.

Lemma knows_hb P tr i b : knows P tr i -> (forall a, P a -> linked a b = true) -> hb (tr ++ [b]) i (length tr).
Proof.
  intros (k & a & H1 & H2 & H3) H.
  assert (L : (k < length tr)%nat) by (apply nth_error_Some; congruence).
  assert (X : hb (tr ++ [b]) k (length tr)).
  { apply (hb_one _ k _ a b); auto; [apply nth_app_some; exact H1|apply nth_last]. }
  destruct H3 as [->|H3]; [exact X|]. eapply hb_trans; [apply hb_app; exact H3|exact X].
Qed.

Lemma knows_last (P Q : action -> Prop) tr i b : knows P tr i -> (forall a, P a -> linked a b = true) ->
  Q b -> knows Q (tr ++ [b]) i.
Proof.
  intros H1 H2 H3. exists (length tr), b. split; [apply nth_last|]. split; [exact H3|].
  right. apply (knows_hb P); auto.
Qed.

Lemma linked_by t b a : actor b = Some t -> by_ t a -> linked a b = true.
Proof.
  intros Eb [E|E]; unfold linked; [rewrite E, Eb, Nat.eqb_refl; reflexivity|subst a; reflexivity].
Qed.

(** ** Accesses *)

Inductive point := PRoot | PByte (x : Z).
Definition touches (p : place) (q : point) : Prop :=
  match p, q with
  | Root, PRoot => True
  | Bytes y n, PByte x => y <= x < y + n
  | _, _ => False
  end.

Lemma overlap_touch p q : overlap p q = true -> exists x, touches p x /\ touches q x.
Proof.
  destruct p as [|x n], q as [|y m]; cbn; try discriminate.
  - intros _. exists PRoot. split; exact I.
  - intros H. apply Z.ltb_lt in H. exists (PByte (Z.max x y)). cbn. lia.
Qed.

Definition acc (tr : list action) (i : nat) (q : point) (k : kind) : Prop :=
  exists t p, nth_error tr i = Some (Acc t p k) /\ touches p q.

Lemma acc_app tr b i q k : acc (tr ++ [b]) i q k ->
  acc tr i q k \/ (i = length tr /\ exists t p, b = Acc t p k /\ touches p q).
Proof.
  intros (t & p & H1 & H2). destruct (Nat.lt_ge_cases i (length tr)) as [L|L].
  - left. exists t, p. rewrite nth_error_app1 in H1 by exact L. auto.
  - right. rewrite nth_error_app2 in H1 by exact L.
    destruct (i - length tr)%nat as [|n] eqn:E; cbn in H1.
    + inversion H1; subst. split; [lia|]. exists t, p. auto.
    + destruct n; discriminate.
Qed.

(** ** What has to be known *)

Record st := mkSt {
  s_cs : list chunk;
  s_tab : list (option ublock);
  s_own : nat -> nat -> Prop;          (* the thread works on the handle *)
  s_hold : nat -> ublock -> Prop;      (* the thread has a block nobody else knows *)
  s_lk : lock
}.

Definition holds (lk : lock) (t : nat) : Prop := In t (lk_readers lk) \/ lk_writer lk = Some t.

(** Everybody who has or gets the lock knows. *)
Definition pub (tr : list action) (lk : lock) (i : nat) : Prop :=
  (forall t, holds lk t -> knows (by_ t) tr i) /\ (lk_writer lk = None -> knows wrel tr i).
(** Everybody who has or gets the lock exclusively knows. *)
Definition shr (tr : list action) (lk : lock) (i : nat) : Prop :=
  (forall t, lk_writer lk = Some t -> knows (by_ t) tr i) /\
  (lk_writer lk = None ->
     (exists t, In t (lk_readers lk) /\ knows (by_ t) tr i) \/ knows rrel tr i \/ knows wrel tr i).

Definition in_hdr (c : chunk) (x : Z) : Prop := c_ptr c <= x < c_base c.
Definition in_free (c : chunk) (x : Z) : Prop := c_cur c <= x < c_end c.
Definition in_used (c : chunk) (x : Z) : Prop := c_base c <= x < c_cur c.
Definition fast_acc (c : chunk) (x : Z) (k : kind) : Prop :=
  (k = Atomic /\ c_ptr c + CURSOR <= x < c_ptr c + CURSOR + 8) \/
  (k = NaRead /\ c_ptr c + END <= x < c_ptr c + END + 8).
Definition in_tab (tab : list (option ublock)) (x : Z) : Prop := exists h u, get h tab = Some u /\ in_u x u.

Record rinv (tr : list action) (S : st) : Prop := mkR {
  r_root : forall i k, acc tr i PRoot k -> pub tr (s_lk S) i \/ (k = NaRead /\ shr tr (s_lk S) i);
  r_hdr : forall c x i k, In c (s_cs S) -> in_hdr c x -> acc tr i (PByte x) k ->
    pub tr (s_lk S) i \/ (shr tr (s_lk S) i /\ fast_acc c x k);
  r_free : forall c x i k, In c (s_cs S) -> in_free c x -> acc tr i (PByte x) k -> pub tr (s_lk S) i;
  r_used : forall c x i k, In c (s_cs S) -> in_used c x -> acc tr i (PByte x) k ->
    shr tr (s_lk S) i \/ in_tab (s_tab S) x \/ exists t u, s_hold S t u /\ in_u x u;
  r_out : forall x i k, (forall c, In c (s_cs S) -> ~ in_u x (c_u c)) -> acc tr i (PByte x) k ->
    pub tr (s_lk S) i;
  r_tab : forall h u x i k, get h (s_tab S) = Some u -> in_u x u -> acc tr i (PByte x) k ->
    (forall t, s_own S t h -> knows (by_ t) tr i) /\
    ((forall t, ~ s_own S t h) -> knows (hrel h) tr i);
  r_hold : forall t u x i k, s_hold S t u -> in_u x u -> acc tr i (PByte x) k -> knows (by_ t) tr i
}.

Definition good (tr : list action) (S : st) : Prop := race_free tr /\ rinv tr S.

(** The parts of memory are separate. *)
Record wf (S : st) : Prop := mkWf {
  w_cwf : forall c, In c (s_cs S) -> c_base c <= c_cur c <= c_end c;
  w_one : forall c1 c2 x, In c1 (s_cs S) -> In c2 (s_cs S) -> c_ptr c1 <= x < c_end c1 ->
    c_ptr c2 <= x < c_end c2 -> c1 = c2;
  w_tab_in : forall h u x, get h (s_tab S) = Some u -> in_u x u -> exists c, In c (s_cs S) /\ in_used c x;
  w_hold_in : forall t u x, s_hold S t u -> in_u x u -> exists c, In c (s_cs S) /\ in_used c x;
  w_tab_tab : forall h1 h2 u1 u2 x, get h1 (s_tab S) = Some u1 -> get h2 (s_tab S) = Some u2 ->
    in_u x u1 -> in_u x u2 -> h1 = h2;
  w_tab_hold : forall h u1 t u2 x, get h (s_tab S) = Some u1 -> s_hold S t u2 -> in_u x u1 -> in_u x u2 -> False;
  w_hold_hold : forall t1 t2 u1 u2 x, s_hold S t1 u1 -> s_hold S t2 u2 -> in_u x u1 -> in_u x u2 -> t1 = t2;
  w_own : forall t1 t2 h, s_own S t1 h -> s_own S t2 h -> t1 = t2;
  w_lock : lk_writer (s_lk S) <> None -> lk_readers (s_lk S) = []
}.

(** ** Longer traces *)

Lemma pub_app tr l lk i : pub tr lk i -> pub (tr ++ l) lk i.
Proof. intros (H1 & H2). split; [intros t H; apply knows_app; auto|intros H; apply knows_app; auto]. Qed.
Lemma shr_app tr l lk i : shr tr lk i -> shr (tr ++ l) lk i.
Proof.
  intros (H1 & H2). split; [intros t H; apply knows_app; auto|].
  intros H. destruct (H2 H) as [(t & Ht & K)|[K|K]].
  - left. exists t. auto using knows_app.
  - right; left; apply knows_app; exact K.
  - right; right; apply knows_app; exact K.
Qed.
Lemma pub_shr tr lk i : pub tr lk i -> shr tr lk i.
Proof.
  intros (H1 & H2). split; [intros t H; apply H1; right; exact H|]. intros H. right; right. auto.
Qed.
Lemma pub_holds tr lk i t : pub tr lk i -> holds lk t -> knows (by_ t) tr i.
Proof. intros (H & _). apply H. Qed.
Lemma shr_holds tr lk i t : holds lk t -> (lk_writer lk <> None -> lk_readers lk = []) ->
  knows (by_ t) tr i -> shr tr lk i.
Proof.
  intros [H|H] Hw K; split.
  - intros t' E. rewrite Hw in H by congruence. contradiction.
  - intros _. left. eauto.
  - intros t' E. replace t' with t by congruence. exact K.
  - congruence.
Qed.

Lemma race_free_app tr b : race_free tr ->
  (forall i a, nth_error tr i = Some a -> conflict a b = true -> hb (tr ++ [b]) i (length tr)) ->
  race_free (tr ++ [b]).
Proof.
  intros H Hb i j a a' L Ha Ha' Hc. destruct (Nat.lt_ge_cases j (length tr)) as [Lj|Lj].
  - apply hb_app. rewrite nth_error_app1 in Ha by lia. rewrite nth_error_app1 in Ha' by lia.
    apply (H i j a a'); auto.
  - assert (E : j = length tr).
    { assert (j < length (tr ++ [b]))%nat by (apply nth_error_Some; congruence).
      rewrite app_length in *. cbn in *. lia. }
    subst j. rewrite nth_last in Ha'. inversion Ha'; subst a'.
    rewrite nth_error_app1 in Ha by lia. apply (Hb i a); auto.
Qed.

Definition is_acc (a : action) : bool := match a with Acc _ _ _ => true | _ => false end.

Lemma race_free_sync tr b : race_free tr -> is_acc b = false -> race_free (tr ++ [b]).
Proof.
  intros H E. apply race_free_app; [exact H|]. intros i a _ Hc. destruct b; try discriminate; destruct a; discriminate.
Qed.

Lemma acc_sync tr b i q k : is_acc b = false -> acc (tr ++ [b]) i q k -> acc tr i q k.
Proof.
  intros E H. apply acc_app in H. destruct H as [H|(_ & t & p & -> & _)]; [exact H|discriminate].
Qed.

(** A synchronisation: everything that was known is known, and the requirements may change. *)
Lemma good_sync tr b S S' : good tr S -> is_acc b = false ->
  s_cs S' = s_cs S -> s_tab S' = s_tab S -> (forall t u, s_hold S' t u <-> s_hold S t u) ->
  (forall i, pub tr (s_lk S) i -> pub (tr ++ [b]) (s_lk S') i) ->
  (forall i, shr tr (s_lk S) i -> shr (tr ++ [b]) (s_lk S') i) ->
  (forall h i u, get h (s_tab S) = Some u ->
     (forall t, s_own S t h -> knows (by_ t) tr i) /\ ((forall t, ~ s_own S t h) -> knows (hrel h) tr i) ->
     (forall t, s_own S' t h -> knows (by_ t) (tr ++ [b]) i) /\
     ((forall t, ~ s_own S' t h) -> knows (hrel h) (tr ++ [b]) i)) ->
  good (tr ++ [b]) S'.
Proof.
  intros (Hf & R) E E1 E2 E3 Hp Hs Ht. split; [apply race_free_sync; auto|]. constructor.
  - intros i k Ha. apply (acc_sync _ _ _ _ _ E) in Ha.
    destruct (r_root _ _ R i k Ha) as [H|(H1 & H2)]; auto.
  - intros c x i k Hc Hx Ha. apply (acc_sync _ _ _ _ _ E) in Ha. rewrite E1 in Hc.
    destruct (r_hdr _ _ R c x i k Hc Hx Ha) as [H|(H1 & H2)]; auto.
  - intros c x i k Hc Hx Ha. apply (acc_sync _ _ _ _ _ E) in Ha. rewrite E1 in Hc.
    apply Hp. apply (r_free _ _ R c x i k Hc Hx Ha).
  - intros c x i k Hc Hx Ha. apply (acc_sync _ _ _ _ _ E) in Ha. rewrite E1 in Hc. rewrite E2.
    destruct (r_used _ _ R c x i k Hc Hx Ha) as [H|[H|(t & u & H1 & H2)]]; auto.
    right; right. exists t, u. rewrite E3. auto.
  - intros x i k Hc Ha. apply (acc_sync _ _ _ _ _ E) in Ha. rewrite E1 in Hc.
    apply Hp. apply (r_out _ _ R x i k Hc Ha).
  - intros h u x i k G Hx Ha. apply (acc_sync _ _ _ _ _ E) in Ha. rewrite E2 in G.
    apply (Ht h i u G). apply (r_tab _ _ R h u x i k G Hx Ha).
  - intros t u x i k Hu Hx Ha. apply (acc_sync _ _ _ _ _ E) in Ha. rewrite E3 in Hu.
    apply knows_app. apply (r_hold _ _ R t u x i k Hu Hx Ha).
Qed.

Lemma tab_app (own : nat -> nat -> Prop) tr b h i :
  (forall t, own t h -> knows (by_ t) tr i) /\ ((forall t, ~ own t h) -> knows (hrel h) tr i) ->
  (forall t, own t h -> knows (by_ t) (tr ++ [b]) i) /\
  ((forall t, ~ own t h) -> knows (hrel h) (tr ++ [b]) i).
Proof. intros (H1 & H2). split; [intros t H; apply knows_app; auto|intros H; apply knows_app; auto]. Qed.

Definition with_lk (S : st) (k : lock) : st := mkSt (s_cs S) (s_tab S) (s_own S) (s_hold S) k.
Definition with_own (S : st) (own : nat -> nat -> Prop) : st := mkSt (s_cs S) (s_tab S) own (s_hold S) (s_lk S).

Lemma linked_w t a : wrel a -> linked a (RLock t) = true /\ linked a (WLock t) = true.
Proof. intros [(t' & ->)| ->]; cbn; rewrite ?orb_true_r; auto. Qed.
Lemma linked_r t a : rrel a -> linked a (WLock t) = true.
Proof. intros [(t' & ->)| ->]; cbn; rewrite ?orb_true_r; auto. Qed.
Lemma linked_h t h a : hrel h a -> linked a (Take t h) = true.
Proof. intros [(t' & ->)| ->]; cbn; rewrite ?Nat.eqb_refl, ?orb_true_r; auto. Qed.

Lemma good_rlock tr S t : good tr S -> lk_writer (s_lk S) = None ->
  good (tr ++ [RLock t]) (with_lk S (with_reader t (s_lk S))).
Proof.
  intros G E. apply (good_sync tr _ S); auto; try reflexivity.
  - intros i (H1 & H2). split; [|intros _; apply knows_app; auto].
    intros t' [[<-|H]|H].
    + apply (knows_last wrel); [auto|intros a Ha; apply linked_w; exact Ha|left; reflexivity].
    + apply knows_app, H1. left; exact H.
    + apply knows_app, H1. right; exact H.
  - intros i (H1 & H2). split; [cbn; rewrite E; discriminate|]. intros _.
    destruct (H2 E) as [(t' & Ht & K)|[K|K]].
    + left. exists t'. split; [right; exact Ht|apply knows_app; exact K].
    + right; left; apply knows_app; exact K.
    + right; right; apply knows_app; exact K.
  - intros h i u _. apply tab_app.
Qed.

Lemma good_wlock tr S t : good tr S -> lk_writer (s_lk S) = None -> lk_readers (s_lk S) = [] ->
  good (tr ++ [WLock t]) (with_lk S (mkLock [] (Some t))).
Proof.
  intros G E E2. apply (good_sync tr _ S); auto; try reflexivity.
  - intros i (H1 & H2). split; [|cbn; discriminate].
    intros t' [[]|H]. cbn in H. inversion H; subst t'.
    apply (knows_last wrel); [auto|intros a Ha; apply linked_w; exact Ha|left; reflexivity].
  - intros i (H1 & H2). split; [|cbn; discriminate]. cbn. intros t' H. inversion H; subst t'.
    destruct (H2 E) as [(t' & Ht & K)|[K|K]].
    + rewrite E2 in Ht. contradiction.
    + apply (knows_last rrel); [auto|intros a Ha; apply linked_r; exact Ha|left; reflexivity].
    + apply (knows_last wrel); [auto|intros a Ha; apply linked_w; exact Ha|left; reflexivity].
  - intros h i u _. apply tab_app.
Qed.

Lemma good_runlock tr S t : good tr S -> lk_writer (s_lk S) = None ->
  good (tr ++ [RUnlock t]) (with_lk S (without t false (s_lk S))).
Proof.
  intros G E. apply (good_sync tr _ S); auto; try reflexivity.
  - intros i (H1 & H2). split; [|intros _; apply knows_app; auto].
    intros t' [H|H]; apply knows_app, H1; [left|right; exact H].
    cbn in H. apply in_remove in H. apply H.
  - intros i (H1 & H2). split; [cbn; rewrite E; discriminate|]. intros _.
    destruct (H2 E) as [(t' & Ht & K)|[K|K]].
    + destruct (Nat.eq_dec t' t) as [->|N].
      * right; left. apply (knows_last (by_ t)); [exact K|intros a; apply linked_by; reflexivity|left; eauto].
      * left. exists t'. split; [cbn; apply in_in_remove; auto|apply knows_app; exact K].
    + right; left; apply knows_app; exact K.
    + right; right; apply knows_app; exact K.
  - intros h i u _. apply tab_app.
Qed.

Lemma good_wunlock tr S t : good tr S -> lk_writer (s_lk S) = Some t -> lk_readers (s_lk S) = [] ->
  good (tr ++ [WUnlock t]) (with_lk S (without t true (s_lk S))).
Proof.
  intros G E E2. apply (good_sync tr _ S); auto; try reflexivity.
  - intros i (H1 & H2). split.
    + intros t' [H|H]; cbn in H; [rewrite E2 in H; contradiction|discriminate].
    + intros _. apply (knows_last (by_ t)); [apply H1; right; exact E|intros a; apply linked_by; reflexivity|left; eauto].
  - intros i (H1 & H2). split; [cbn; discriminate|]. intros _. right; right.
    apply (knows_last (by_ t)); [apply H1; exact E|intros a; apply linked_by; reflexivity|left; eauto].
  - intros h i u _. apply tab_app.
Qed.

Lemma good_take tr S t h : good tr S -> (forall t', ~ s_own S t' h) ->
  good (tr ++ [Take t h]) (with_own S (fun t' h' => s_own S t' h' \/ (t' = t /\ h' = h))).
Proof.
  intros G N. apply (good_sync tr _ S); auto; try reflexivity; cbn.
  - intros i. apply pub_app.
  - intros i. apply shr_app.
  - intros h' i u Gh (H1 & H2). split.
    + intros t' [H|(-> & ->)]; [apply knows_app; auto|].
      apply (knows_last (hrel h)); [apply H2; exact N|intros a; apply linked_h|left; reflexivity].
    + intros H. apply knows_app, H2. intros t' Ho. apply (H t'). left; exact Ho.
Qed.

Lemma good_give tr S t h : good tr S -> s_own S t h -> (forall t', s_own S t' h -> t' = t) ->
  good (tr ++ [Give t h]) (with_own S (fun t' h' => s_own S t' h' /\ h' <> h)).
Proof.
  intros G Ho Hu. apply (good_sync tr _ S); auto; try reflexivity; cbn.
  - intros i. apply pub_app.
  - intros i. apply shr_app.
  - intros h' i u Gh (H1 & H2). split.
    + intros t' (H & _). apply knows_app. auto.
    + intros H. destruct (Nat.eq_dec h' h) as [->|N].
      * apply (knows_last (by_ t)); [auto|intros a; apply linked_by; reflexivity|left; eauto].
      * apply knows_app, H2. intros t' Hx. apply (H t'). auto.
Qed.

Lemma good_ext tr S S' : good tr S -> s_cs S' = s_cs S -> s_tab S' = s_tab S -> s_lk S' = s_lk S ->
  (forall t h u, get h (s_tab S) = Some u -> (s_own S' t h <-> s_own S t h)) ->
  (forall t u, s_hold S' t u <-> s_hold S t u) -> good tr S'.
Proof.
  intros (Hf & R) E1 E2 E3 E4 E5. split; [exact Hf|]. destruct R as [R1 R2 R3 R4 R5 R6 R7].
  constructor; rewrite ?E1, ?E2, ?E3; auto.
  - intros c x i k Hc Hx Ha. destruct (R4 c x i k Hc Hx Ha) as [H|[H|(t & u & H)]]; auto.
    right; right. exists t, u. rewrite E5. exact H.
  - intros h u x i k G Hx Ha. destruct (R6 h u x i k G Hx Ha) as [H1 H2]. split.
    + intros t H. apply H1. apply (E4 t h u G). exact H.
    + intros H. apply H2. intros t Ht. apply (H t). apply (E4 t h u G). exact Ht.
  - intros t u x i k H. apply (R7 t u). apply E5. exact H.
Qed.

(** ** Accesses that are allowed *)

Definition may_byte (S : st) (t : nat) (k : kind) (x : Z) : Prop :=
  (exists c, In c (s_cs S) /\ in_hdr c x /\
     (lk_writer (s_lk S) = Some t \/ (holds (s_lk S) t /\ fast_acc c x k))) \/
  (exists c, In c (s_cs S) /\ in_free c x /\ lk_writer (s_lk S) = Some t) \/
  (exists c, In c (s_cs S) /\ in_used c x /\ lk_writer (s_lk S) = Some t /\
     (forall h u, get h (s_tab S) = Some u -> in_u x u -> s_own S t h) /\
     (forall t' u, s_hold S t' u -> in_u x u -> t' = t)) \/
  (exists h u, get h (s_tab S) = Some u /\ in_u x u /\ s_own S t h) \/
  (exists u, s_hold S t u /\ in_u x u).

Definition may (S : st) (t : nat) (k : kind) (q : point) : Prop :=
  match q with
  | PRoot => lk_writer (s_lk S) = Some t \/ (holds (s_lk S) t /\ k = NaRead)
  | PByte x => may_byte S t k x
  end.

Lemma pub_or_shr tr lk i t : pub tr lk i \/ shr tr lk i -> lk_writer lk = Some t -> knows (by_ t) tr i.
Proof. intros [H|H] E; [apply (pub_holds _ _ _ _ H); right; exact E|apply H; exact E]. Qed.

(** Every conflicting access made before is known. *)
Lemma may_known tr S t k q i k' : rinv tr S -> wf S -> may S t k q -> acc tr i q k' ->
  kinds_conflict k' k = true -> knows (by_ t) tr i.
Proof.
  intros R W M Ha Hk. destruct q as [|x]; cbn [may] in M.
  - pose proof (r_root _ _ R i k' Ha) as H. destruct M as [M|(M & ->)].
    + apply (pub_or_shr _ _ _ _ ltac:(destruct H as [H|(_ & H)]; [left|right]; exact H) M).
    + destruct H as [H|(-> & _)]; [apply (pub_holds _ _ _ _ H M)|discriminate].
  - destruct M as [(c & Hc & Hx & M)|[(c & Hc & Hx & M)|[(c & Hc & Hx & M & M1 & M2)|[(h & u & G & Hx & M)|(u & M & Hx)]]]].
    + pose proof (r_hdr _ _ R c x i k' Hc Hx Ha) as H. destruct M as [M|(M & M')].
      * apply (pub_or_shr _ _ _ _ ltac:(destruct H as [H|(H & _)]; [left|right]; exact H) M).
      * destruct H as [H|(_ & H)]; [apply (pub_holds _ _ _ _ H M)|]. exfalso.
        unfold fast_acc, CURSOR, END in *.
        destruct M' as [(-> & M1)|(-> & M1)], H as [(-> & H)|(-> & H)]; try discriminate; lia.
    + pose proof (r_free _ _ R c x i k' Hc Hx Ha) as H. apply (pub_holds _ _ _ _ H). right; exact M.
    + destruct (r_used _ _ R c x i k' Hc Hx Ha) as [H|[(h & u & G & Hu)|(t' & u & H1 & H2)]].
      * apply H; exact M.
      * apply (r_tab _ _ R h u x i k' G Hu Ha). apply (M1 h u G Hu).
      * rewrite <- (M2 t' u H1 H2). apply (r_hold _ _ R t' u x i k' H1 H2 Ha).
    + apply (r_tab _ _ R h u x i k' G Hx Ha). exact M.
    + apply (r_hold _ _ R t u x i k' M Hx Ha).
Qed.

(** All accesses made before are known to somebody who may write. *)
Lemma may_byte_in S t k x : wf S -> may_byte S t k x -> exists c, In c (s_cs S) /\ c_ptr c <= x < c_end c.
Proof.
  intros W M.
  assert (Hin : forall c, In c (s_cs S) -> in_hdr c x \/ in_free c x \/ in_used c x -> c_ptr c <= x < c_end c).
  { intros c Hc H. pose proof (w_cwf _ W c Hc) as Hw. unfold in_hdr, in_free, in_used, c_base, HDR in *. lia. }
  destruct M as [(c & Hc & Hx & M)|[(c & Hc & Hx & M)|[(c & Hc & Hx & M & M1 & M2)|[(h & u & G & Hx & M)|(u & M & Hx)]]]].
  - exists c. auto.
  - exists c. auto.
  - exists c. auto 6.
  - destruct (w_tab_in _ W h u x G Hx) as (c & Hc & Hu). exists c. auto 6.
  - destruct (w_hold_in _ W t u x M Hx) as (c & Hc & Hu). exists c. auto 6.
Qed.

Lemma good_acc tr S t p k : good tr S -> wf S -> (forall q, touches p q -> may S t k q) ->
  good (tr ++ [Acc t p k]) S.
Proof.
  intros (Hf & R) W M. split.
  { apply race_free_app; [exact Hf|]. intros i a Ha Hc. destruct a as [t' p' k'| | | | | | |]; try discriminate.
    cbn in Hc. apply andb_true_iff in Hc. destruct Hc as [Ho Hk].
    destruct (overlap_touch _ _ Ho) as (q & T1 & T2).
    apply (knows_hb (by_ t)); [|intros b; apply linked_by; reflexivity].
    apply (may_known tr S t k q i k' R W (M q T2)); [exists t', p'; auto|exact Hk]. }
  set (n := length tr). set (tr' := tr ++ [Acc t p k]).
  assert (Kn : knows (by_ t) tr' n).
  { exists n, (Acc t p k). split; [apply nth_last|]. split; [left; reflexivity|left; reflexivity]. }
  assert (Pn : lk_writer (s_lk S) = Some t -> pub tr' (s_lk S) n).
  { intros E. split; [|congruence]. intros t' [H|H].
    - rewrite (w_lock _ W) in H by congruence. contradiction.
    - replace t' with t by congruence. exact Kn. }
  assert (Sn : holds (s_lk S) t -> shr tr' (s_lk S) n).
  { intros H. apply (shr_holds _ _ _ t H); [apply (w_lock _ W)|exact Kn]. }
  assert (Hin : forall c x, In c (s_cs S) -> in_hdr c x \/ in_free c x \/ in_used c x -> c_ptr c <= x < c_end c).
  { intros c x Hc H. pose proof (w_cwf _ W c Hc) as Hw. unfold in_hdr, in_free, in_used, c_base, HDR in *. lia. }
  assert (Hsplit : forall c x, In c (s_cs S) ->
            (in_hdr c x -> ~ in_free c x /\ ~ in_used c x) /\ (in_free c x -> ~ in_used c x)).
  { intros c x Hc. pose proof (w_cwf _ W c Hc) as Hw. unfold in_hdr, in_free, in_used, c_base, HDR in *. lia. }
  assert (Hone : forall c1 c2 x, In c1 (s_cs S) -> In c2 (s_cs S) ->
            in_hdr c1 x \/ in_free c1 x \/ in_used c1 x -> in_hdr c2 x \/ in_free c2 x \/ in_used c2 x -> c1 = c2).
  { intros c1 c2 x H1 H2 H3 H4. apply (w_one _ W c1 c2 x); auto. }
  constructor.
  - intros i k' Ha. apply acc_app in Ha. destruct Ha as [Ha|(-> & t' & p' & E & T)].
    + destruct (r_root _ _ R i k' Ha) as [H|(H1 & H2)]; [left; apply pub_app; exact H|right].
      split; [exact H1|apply shr_app; exact H2].
    + inversion E; subst t' p' k'. destruct (M _ T) as [H|(H & ->)]; auto.
  - intros c x i k' Hc Hx Ha. apply acc_app in Ha. destruct Ha as [Ha|(-> & t' & p' & E & T)].
    + destruct (r_hdr _ _ R c x i k' Hc Hx Ha) as [H|(H1 & H2)]; [left; apply pub_app; exact H|right].
      split; [apply shr_app; exact H1|exact H2].
    + inversion E; subst t' p' k'.
      destruct (M _ T) as [(c1 & Hc1 & Hx1 & H)|[(c1 & Hc1 & Hx1 & H)|[(c1 & Hc1 & Hx1 & H & M1 & M2)|[(h & u & G & Hu & H)|(u & H & Hu)]]]].
      * replace c1 with c in * by (apply (Hone c c1 x); auto).
        destruct H as [H|(H1 & H2)]; [left; auto|right; auto].
      * replace c1 with c in * by (apply (Hone c c1 x); auto). destruct (Hsplit c x Hc) as [H1 H2]. tauto.
      * replace c1 with c in * by (apply (Hone c c1 x); auto). destruct (Hsplit c x Hc) as [H1 H2]. tauto.
      * destruct (w_tab_in _ W h u x G Hu) as (c1 & Hc1 & Hx1).
        replace c1 with c in * by (apply (Hone c c1 x); auto). destruct (Hsplit c x Hc) as [H1 H2]. tauto.
      * destruct (w_hold_in _ W t u x H Hu) as (c1 & Hc1 & Hx1).
        replace c1 with c in * by (apply (Hone c c1 x); auto). destruct (Hsplit c x Hc) as [H1 H2]. tauto.
  - intros c x i k' Hc Hx Ha. apply acc_app in Ha. destruct Ha as [Ha|(-> & t' & p' & E & T)].
    + apply pub_app. apply (r_free _ _ R c x i k' Hc Hx Ha).
    + inversion E; subst t' p' k'. destruct (Hsplit c x Hc) as [H1 H2].
      destruct (M _ T) as [(c1 & Hc1 & Hx1 & H)|[(c1 & Hc1 & Hx1 & H)|[(c1 & Hc1 & Hx1 & H & M1 & M2)|[(h & u & G & Hu & H)|(u & H & Hu)]]]].
      * replace c1 with c in * by (apply (Hone c c1 x); auto). tauto.
      * auto.
      * auto.
      * destruct (w_tab_in _ W h u x G Hu) as (c1 & Hc1 & Hx1).
        replace c1 with c in * by (apply (Hone c c1 x); auto). tauto.
      * destruct (w_hold_in _ W t u x H Hu) as (c1 & Hc1 & Hx1).
        replace c1 with c in * by (apply (Hone c c1 x); auto). tauto.
  - intros c x i k' Hc Hx Ha. apply acc_app in Ha. destruct Ha as [Ha|(-> & t' & p' & E & T)].
    + destruct (r_used _ _ R c x i k' Hc Hx Ha) as [H|H]; [left; apply shr_app; exact H|right; exact H].
    + inversion E; subst t' p' k'. destruct (Hsplit c x Hc) as [H1 H2].
      destruct (M _ T) as [(c1 & Hc1 & Hx1 & H)|[(c1 & Hc1 & Hx1 & H)|[(c1 & Hc1 & Hx1 & H & M1 & M2)|[(h & u & G & Hu & H)|(u & H & Hu)]]]].
      * replace c1 with c in * by (apply (Hone c c1 x); auto). tauto.
      * replace c1 with c in * by (apply (Hone c c1 x); auto). tauto.
      * left. apply Sn. right; exact H.
      * right; left. exists h, u. auto.
      * right; right. exists t, u. auto.
  - intros x i k' Hc Ha. apply acc_app in Ha. destruct Ha as [Ha|(-> & t' & p' & E & T)].
    + apply pub_app. apply (r_out _ _ R x i k' Hc Ha).
    + inversion E; subst t' p' k'. destruct (may_byte_in S t k x W (M _ T)) as (c & Hc' & Hx).
      destruct (Hc c Hc'). unfold in_u. unfold c_ptr, c_end in Hx. exact Hx.
  - intros h u x i k' G Hx Ha. apply acc_app in Ha. destruct Ha as [Ha|(-> & t' & p' & E & T)].
    + apply tab_app. apply (r_tab _ _ R h u x i k' G Hx Ha).
    + inversion E; subst t' p' k'.
      assert (Ho : s_own S t h).
      { destruct (w_tab_in _ W h u x G Hx) as (c & Hc & Hxc). destruct (Hsplit c x Hc) as [H1 H2].
        destruct (M _ T) as [(c1 & Hc1 & Hx1 & H)|[(c1 & Hc1 & Hx1 & H)|[(c1 & Hc1 & Hx1 & H & M1 & M2)|[(h1 & u1 & G1 & Hu1 & H)|(u1 & H & Hu1)]]]].
        - replace c1 with c in * by (apply (Hone c c1 x); auto). tauto.
        - replace c1 with c in * by (apply (Hone c c1 x); auto). tauto.
        - apply (M1 h u G Hx).
        - rewrite (w_tab_tab _ W h h1 u u1 x G G1 Hx Hu1). exact H.
        - destruct (w_tab_hold _ W h u t u1 x G H Hx Hu1). }
      split; [|intros N; destruct (N t Ho)]. intros t' Ht'.
      rewrite (w_own _ W t' t h Ht' Ho). exact Kn.
  - intros t0 u x i k' Hu Hx Ha. apply acc_app in Ha. destruct Ha as [Ha|(-> & t' & p' & E & T)].
    + apply knows_app. apply (r_hold _ _ R t0 u x i k' Hu Hx Ha).
    + inversion E; subst t' p' k'.
      assert (Ho : t0 = t); [|subst t0; exact Kn].
      destruct (w_hold_in _ W t0 u x Hu Hx) as (c & Hc & Hxc). destruct (Hsplit c x Hc) as [H1 H2].
      destruct (M _ T) as [(c1 & Hc1 & Hx1 & H)|[(c1 & Hc1 & Hx1 & H)|[(c1 & Hc1 & Hx1 & H & M1 & M2)|[(h1 & u1 & G1 & Hu1 & H)|(u1 & H & Hu1)]]]].
      * replace c1 with c in * by (apply (Hone c c1 x); auto). tauto.
      * replace c1 with c in * by (apply (Hone c c1 x); auto). tauto.
      * apply (M2 t0 u Hu Hx).
      * destruct (w_tab_hold _ W h1 u1 t0 u x G1 Hu Hu1 Hx).
      * apply (w_hold_hold _ W t0 t u u1 x Hu H Hx Hu1).
Qed.

Lemma good_accs tr S t l : good tr S -> wf S ->
  (forall a, In a l -> exists p k, a = Acc t p k /\ forall q, touches p q -> may S t k q) ->
  good (tr ++ l) S.
Proof.
  revert tr. induction l as [|a l IH]; intros tr G W H; [rewrite app_nil_r; exact G|].
  replace (tr ++ a :: l) with ((tr ++ [a]) ++ l) by (rewrite <- app_assoc; reflexivity).
  apply IH; auto.
  - destruct (H a (or_introl eq_refl)) as (p & k & -> & Hm). apply good_acc; auto.
  - intros b Hb. apply H. right; exact Hb.
Qed.

(** ** Changes of what belongs to whom *)

(** Bytes that [t] may give a new role. *)
Definition origin (S : st) (t : nat) (x : Z) : Prop :=
  (exists u, s_hold S t u /\ in_u x u) \/
  (exists h u, get h (s_tab S) = Some u /\ in_u x u /\ s_own S t h) \/
  (exists c, In c (s_cs S) /\ in_free c x).

Definition advances (c c' : chunk) : Prop := c_u c' = c_u c /\ c_cur c <= c_cur c'.

Lemma good_move tr S S' t : good tr S -> wf S -> wf S' -> holds (s_lk S) t ->
  s_lk S' = s_lk S ->
  Forall2 advances (s_cs S) (s_cs S') ->
  (forall h u, get h (s_tab S) = Some u -> s_own S t h \/ get h (s_tab S') = Some u) ->
  (forall t' u, s_hold S t' u -> t' = t \/ s_hold S' t' u) ->
  (forall h u x, get h (s_tab S') = Some u -> in_u x u ->
     (get h (s_tab S) = Some u /\ forall t', s_own S' t' h <-> s_own S t' h) \/
     (origin S t x /\ s_own S' t h /\ forall t', s_own S' t' h -> t' = t)) ->
  (forall t' u x, s_hold S' t' u -> in_u x u -> s_hold S t' u \/ (t' = t /\ origin S t x)) ->
  good tr S'.
Proof.
  intros (Hf & R) W W' Hh El Hcs Ht Hhd Ht' Hhd'. split; [exact Hf|].
  assert (Ho : forall x i k, origin S t x -> acc tr i (PByte x) k -> knows (by_ t) tr i).
  { intros x i k [(u & H & Hx)|[(h & u & G & Hx & H)|(c & Hc & Hx)]] Ha.
    - apply (r_hold _ _ R t u x i k H Hx Ha).
    - apply (r_tab _ _ R h u x i k G Hx Ha). exact H.
    - apply (pub_holds _ _ _ _ (r_free _ _ R c x i k Hc Hx Ha) Hh). }
  assert (Hback : forall c', In c' (s_cs S') -> exists c, In c (s_cs S) /\ advances c c').
  { clear -Hcs. induction Hcs as [|c c' l l' H Hl IH]; [intros _ []|].
    intros d [<-|Hd]; [exists c; split; [left; reflexivity|exact H]|].
    destruct (IH d Hd) as (c1 & H1 & H2). exists c1. split; [right; exact H1|exact H2]. }
  assert (Hforth : forall c, In c (s_cs S) -> exists c', In c' (s_cs S') /\ advances c c').
  { clear -Hcs. induction Hcs as [|c c' l l' H Hl IH]; [intros _ []|].
    intros d [<-|Hd]; [exists c'; split; [left; reflexivity|exact H]|].
    destruct (IH d Hd) as (c1 & H1 & H2). exists c1. split; [right; exact H1|exact H2]. }
  assert (Hs : forall i, knows (by_ t) tr i -> shr tr (s_lk S) i).
  { intros i K. apply (shr_holds _ _ _ t Hh (w_lock _ W) K). }
  constructor; rewrite ?El.
  - apply (r_root _ _ R).
  - intros c' x i k Hc Hx Ha. destruct (Hback c' Hc) as (c & Hc0 & E & _).
    unfold in_hdr, fast_acc, c_base, c_ptr in *. rewrite E in *.
    apply (r_hdr _ _ R c x i k Hc0); [exact Hx|exact Ha].
  - intros c' x i k Hc Hx Ha. destruct (Hback c' Hc) as (c & Hc0 & E & L).
    apply (r_free _ _ R c x i k Hc0); [|exact Ha]. unfold in_free, c_end, c_ptr in *. rewrite E in *. lia.
  - intros c' x i k Hc Hx Ha. destruct (Hback c' Hc) as (c & Hc0 & E & L).
    destruct (Z.lt_ge_cases x (c_cur c)) as [Lx|Lx].
    + destruct (r_used _ _ R c x i k Hc0) as [H|[(h & u & G & Hu)|(t' & u & H1 & H2)]]; auto.
      * unfold in_used, c_base, c_ptr in *. rewrite E in *. lia.
      * destruct (Ht h u G) as [H|H].
        -- left. apply Hs. apply (r_tab _ _ R h u x i k G Hu Ha). exact H.
        -- right; left. exists h, u. auto.
      * destruct (Hhd t' u H1) as [->|H].
        -- left. apply Hs. apply (r_hold _ _ R t u x i k H1 H2 Ha).
        -- right; right. exists t', u. auto.
    + left. apply pub_shr. apply (r_free _ _ R c x i k Hc0); [|exact Ha].
      pose proof (w_cwf _ W' c' Hc) as Hw. unfold in_used, in_free, c_end, c_ptr in *. rewrite E in *. lia.
  - intros x i k Hc Ha. apply (r_out _ _ R x i k); [|exact Ha]. intros c Hc0 Hx.
    destruct (Hforth c Hc0) as (c' & Hc' & E & _). apply (Hc c' Hc'). rewrite E. exact Hx.
  - intros h u x i k G Hx Ha. destruct (Ht' h u x G Hx) as [(G0 & Eo)|(O & H1 & H2)].
    + destruct (r_tab _ _ R h u x i k G0 Hx Ha) as [K1 K2]. split.
      * intros t' H. apply K1, Eo, H.
      * intros H. apply K2. intros t' H'. apply (H t'), Eo, H'.
    + split; [|intros N; destruct (N t H1)]. intros t' H. rewrite (H2 t' H). apply (Ho x i k O Ha).
  - intros t' u x i k Hu Hx Ha. destruct (Hhd' t' u x Hu Hx) as [H|(-> & O)].
    + apply (r_hold _ _ R t' u x i k H Hx Ha).
    + apply (Ho x i k O Ha).
Qed.

(** A chunk the underlying allocator gave. *)
Lemma good_chunk tr S c : good tr S ->
  (forall x d, In d (s_cs S) -> in_u x (c_u c) -> ~ in_u x (c_u d)) -> c_base c <= c_cur c <= c_end c ->
  good tr (mkSt (c :: s_cs S) (s_tab S) (s_own S) (s_hold S) (s_lk S)).
Proof.
  intros (Hf & R) Hd Hw. split; [exact Hf|].
  assert (Hp : forall x i k, c_ptr c <= x < c_end c -> acc tr i (PByte x) k -> pub tr (s_lk S) i).
  { intros x i k Hx Ha. apply (r_out _ _ R x i k); [|exact Ha]. intros d Hd' Hu.
    apply (Hd x d Hd'); [|exact Hu]. exact Hx. }
  destruct R as [R1 R2 R3 R4 R5 R6 R7]. constructor; cbn [s_cs s_tab s_own s_hold s_lk]; auto.
  - intros d x i k [<-|Hc] Hx Ha; [left|apply (R2 d x i k Hc Hx Ha)].
    apply (Hp x i k); [|exact Ha]. unfold in_hdr in Hx. lia.
  - intros d x i k [<-|Hc] Hx Ha; [|apply (R3 d x i k Hc Hx Ha)].
    apply (Hp x i k); [|exact Ha]. unfold in_free, c_base, HDR in *. lia.
  - intros d x i k [<-|Hc] Hx Ha; [left|apply (R4 d x i k Hc Hx Ha)].
    apply pub_shr, (Hp x i k); [|exact Ha]. unfold in_used, c_base, HDR in *. lia.
  - intros x i k Hc Ha. apply (R5 x i k); [|exact Ha]. intros d Hd'. apply Hc. right; exact Hd'.
Qed.

(** Somebody who has the lock exclusively and works on all blocks knows everything. *)
Lemma all_known tr S t i q k : rinv tr S -> lk_writer (s_lk S) = Some t ->
  (forall c, In c (s_cs S) -> c_base c <= c_cur c <= c_end c) ->
  (forall h u, get h (s_tab S) = Some u -> s_own S t h) ->
  (forall t' u, s_hold S t' u -> t' = t) -> acc tr i q k -> knows (by_ t) tr i.
Proof.
  intros R E Hw Ho Hh Ha. destruct q as [|x].
  - apply (pub_or_shr tr (s_lk S) i t); [|exact E].
    destruct (r_root _ _ R i k Ha) as [H|(_ & H)]; [left|right]; exact H.
  - destruct (List.Exists_dec (fun c => c_ptr c <= x < c_end c) (s_cs S)) as [Hd|Hd].
    { intros d. destruct (Z_le_dec (c_ptr d) x), (Z_lt_dec x (c_end d)); [left; auto| | |]; right; lia. }
    + apply List.Exists_exists in Hd. destruct Hd as (c & Hc & Hx).
      destruct (Z.lt_ge_cases x (c_base c)) as [L1|L1].
      { apply (pub_or_shr tr (s_lk S) i t); [|exact E].
        destruct (r_hdr _ _ R c x i k Hc) as [H|(H & _)]; auto. split; lia. }
      destruct (Z.lt_ge_cases x (c_cur c)) as [L2|L2].
      * destruct (r_used _ _ R c x i k Hc) as [H|[(h & u & G & Hu)|(t' & u & H1 & H2)]]; auto; [split; lia| | |].
        -- apply H; exact E.
        -- apply (r_tab _ _ R h u x i k G Hu Ha). apply (Ho h u G).
        -- rewrite <- (Hh t' u H1). apply (r_hold _ _ R t' u x i k H1 H2 Ha).
      * apply (pub_holds _ _ _ _ (r_free _ _ R c x i k Hc ltac:(split; lia) Ha)). right; exact E.
    + apply (pub_holds tr (s_lk S) i t); [|right; exact E]. apply (r_out _ _ R x i k); [|exact Ha].
      intros c Hc Hx. apply Hd. apply List.Exists_exists. exists c. split; [exact Hc|]. exact Hx.
Qed.

(** If everything is known to the one who had the lock, everything may change when it is released. *)
Lemma good_reset tr b S : race_free tr -> is_acc b = false -> wrel b ->
  (forall i q k, acc tr i q k -> knows wrel (tr ++ [b]) i) ->
  lk_writer (s_lk S) = None -> lk_readers (s_lk S) = [] ->
  (forall h, get h (s_tab S) = None) -> (forall t u, ~ s_hold S t u) -> good (tr ++ [b]) S.
Proof.
  intros Hf E Hb H E1 E2 Ht Hh. split; [apply race_free_sync; auto|].
  assert (Hp : forall i q k, acc (tr ++ [b]) i q k -> pub (tr ++ [b]) (s_lk S) i).
  { intros i q k Ha. apply (acc_sync _ _ _ _ _ E) in Ha. split; [|intros _; apply (H i q k Ha)].
    intros t [Hx|Hx]; [rewrite E2 in Hx; contradiction|congruence]. }
  constructor; eauto.
  - intros c x i k _ _ Ha. left. apply pub_shr. eauto.
  - intros h u x i k G. rewrite Ht in G. discriminate.
  - intros t u x i k G. destruct (Hh t u G).
Qed.
