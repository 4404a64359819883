(** A [SyncBlinkAlloc] that other threads use keeps the contract of [Allocator]. *)
From Coq Require Import Permutation.
From Verif Require Import Base BaseFacts Alloc AllocFacts Arena ArenaFacts ArenaInv ArenaOps
  BlinkAlloc BlinkFacts History HistoryFacts Setup SetupFacts SetupOps Conc ConcFacts ConcSteps ConcProps
  ConcShape ConcKeep ConcDrain Blink BlinkInv BlinkIter BlinkEnv Threaded ThreadedFacts ThreadedExact ThreadedCall.

(** A block as the client knows it, and the block it is: the same one, or an empty block at the
    same address, with the same layout.  (Of several blocks at an address all but one are
    empty; the allocator cannot tell which one it is given back.) *)
Definition within (c r : ublock) : Prop :=
  c = r \/ (u_ptr c = u_ptr r /\ u_layout c = u_layout r /\ u_len c = 0 /\ l_size (u_layout r) = 0).

Definition held (tab : list (option ublock)) (h : nat) (c : ublock) : Prop := exists r, get h tab = Some r /\ within c r.

Definition blank (b : sbuf) : sbuf := mkS (s_layout b) (s_len b) (fun _ => None).
Fixpoint forget (i : nat) (mine : list nat) (s : list (option sbuf)) : list (option sbuf) :=
  match s with
  | [] => []
  | b :: s' => (if existsb (Nat.eqb i) mine then option_map blank b else b) :: forget (S i) mine s'
  end.

Lemma forget_get mine s : forall i h, get h (forget i mine s) = if existsb (Nat.eqb (i + h)) mine then option_map blank (get h s) else get h s.
Proof.
  induction s as [|b s IH]; intros i h; cbn [forget].
  - unfold get. destruct h; cbn; destruct (existsb _ mine); reflexivity.
  - destruct h as [|h].
    + rewrite Nat.add_0_r. unfold get. cbn. destruct (existsb _ mine); destruct b; reflexivity.
    + replace (i + S h)%nat with (S i + h)%nat by lia. specialize (IH (S i) h). unfold get in *. cbn. exact IH.
Qed.
Lemma forget_length mine s : forall i, length (forget i mine s) = length s.
Proof. induction s as [|b s IH]; intros i; cbn; [reflexivity|]. rewrite IH. reflexivity. Qed.
Lemma existsb_in h mine : existsb (Nat.eqb h) mine = true <-> In h mine.
Proof.
  rewrite existsb_exists. split.
  - intros (x & Hx & E). apply Nat.eqb_eq in E. subst. exact Hx.
  - intros H. exists h. split; [exact H|apply Nat.eqb_refl].
Qed.
Lemma forget_alike mine s s' : alike mine s s' -> alike mine (forget 0 mine s) s'.
Proof.
  intros [L H]. split; [rewrite forget_length; exact L|]. intros h. destruct (H h) as [H1 H2]. rewrite forget_get. cbn [Nat.add].
  destruct (existsb (Nat.eqb h) mine) eqn:E.
  - split; [rewrite <- H1; destruct (get h s); reflexivity|]. intros N. apply existsb_in in E. contradiction.
  - split; [exact H1|exact H2].
Qed.
Lemma forget_agrees m m' mine tab s : agrees m tab s -> forall i,
  (forall h u, get h tab = Some u -> ~ In (i + h)%nat mine -> same_on [u] m m') -> agrees m' tab (forget i mine s).
Proof.
  intros H. induction H as [|u b tab s Hb H IH]; intros i K; cbn [forget]; [constructor|]. constructor.
  - destruct (existsb (Nat.eqb i) mine) eqn:E.
    + destruct u as [u|], b as [b|]; cbn in *; try contradiction; [|exact Logic.I]. destruct Hb as (H1 & H2 & _).
      split; [exact H1|]. split; [exact H2|]. intros j c _ X. discriminate X.
    + destruct u as [u|], b as [b|]; cbn in *; try contradiction; [|exact Logic.I]. destruct Hb as (H1 & H2 & H3).
      split; [exact H1|]. split; [exact H2|]. intros j c Hj Hc.
      rewrite (K 0%nat u eq_refl) with (u := u); [apply H3; assumption| |left; reflexivity|unfold in_u; lia].
      rewrite Nat.add_0_r. intros X. apply existsb_in in X. congruence.
  - apply IH. intros h v G N. apply (K (S h) v G). replace (i + S h)%nat with (S i + h)%nat by lia. exact N.
Qed.

Lemma pick_none p l tab mine h u : pick p l tab mine = None -> In h mine -> get h tab = Some u -> u_ptr u = p -> fits l u -> False.
Proof.
  intros Ep X G' P F. induction mine as [|k' ks IHk]; [destruct X|]. cbn [pick] in Ep.
  destruct X as [->|X].
  - rewrite G' in Ep. apply Z.eqb_eq in P. apply fitsb_spec in F. rewrite P, F in Ep. cbn in Ep.
    destruct (pick p l tab ks) as [[h0 u0]|]; [destruct (u_len u <=? u_len u0)|]; discriminate Ep.
  - apply IHk; [|exact X]. destruct (get k' tab) as [w|]; [|exact Ep]. destruct ((u_ptr w =? p) && fitsb l w); [|exact Ep].
    destruct (pick p l tab ks) as [[h0 u0]|]; [destruct (u_len w <=? u_len u0)|]; discriminate Ep.
Qed.

Lemma pick_some p l tab mine h u : pick p l tab mine = Some (h, u) ->
  In h mine /\ get h tab = Some u /\ u_ptr u = p /\ fits l u /\
  forall h' u', In h' mine -> get h' tab = Some u' -> u_ptr u' = p -> fits l u' -> u_len u <= u_len u'.
Proof.
  revert h u. induction mine as [|k ks IH]; intros h u E; cbn [pick] in E; [discriminate E|].
  assert (Hskip : (forall u', get k tab = Some u' -> ~ (u_ptr u' = p /\ fits l u')) -> pick p l tab ks = Some (h, u) ->
    In h (k :: ks) /\ get h tab = Some u /\ u_ptr u = p /\ fits l u /\
    forall h' u', In h' (k :: ks) -> get h' tab = Some u' -> u_ptr u' = p -> fits l u' -> u_len u <= u_len u').
  { intros N E'. destruct (IH h u E') as (H1 & H2 & H3 & H4 & H5). split; [right; exact H1|]. split; [exact H2|]. split; [exact H3|].
    split; [exact H4|]. intros h' u' [<-|X] G P F; [destruct (N u' G (conj P F))|eapply H5; eassumption]. }
  destruct (get k tab) as [v|] eqn:G; [|apply Hskip; [intros u' X; discriminate X|exact E]].
  destruct ((u_ptr v =? p) && fitsb l v) eqn:C.
  - apply andb_true_iff in C. destruct C as [C1 C2]. apply Z.eqb_eq in C1. apply fitsb_spec in C2.
    destruct (pick p l tab ks) as [[h1 u1]|] eqn:Ep.
    + destruct (IH h1 u1 eq_refl) as (H1 & H2 & H3 & H4 & H5). destruct (Z.leb_spec (u_len v) (u_len u1)) as [Le|Gt].
      * injection E as <- <-. split; [left; reflexivity|]. split; [exact G|]. split; [exact C1|]. split; [exact C2|].
        intros h' u' [<-|X] G' P F; [rewrite G in G'; injection G' as <-; lia|]. specialize (H5 h' u' X G' P F). lia.
      * injection E as <- <-. split; [right; exact H1|]. split; [exact H2|]. split; [exact H3|]. split; [exact H4|].
        intros h' u' [<-|X] G' P F; [rewrite G in G'; injection G' as <-; lia|]. apply (H5 h' u' X G' P F).
    + injection E as <- <-. split; [left; reflexivity|]. split; [exact G|]. split; [exact C1|]. split; [exact C2|].
      intros h' u' [<-|X] G' P F; [rewrite G in G'; injection G' as <-; lia|]. exfalso.
      exact (pick_none p l tab ks h' u' Ep X G' P F).
  - apply Hskip; [|exact E]. intros u' X [P F]. injection X as <-. apply Z.eqb_eq in P. apply fitsb_spec in F. rewrite P, F in C. discriminate C.
Qed.
Section Own.
  Variable su : setup.
  Hypothesis Hok : setup_ok su.
  Variable t : nat.
  Notation fine := (fine su).
  Notation guard := (guard t).

  Definition settled (s : tst) : Prop :=
    fine (t_mine s) (t_g s) (t_log s) /\ nth_error (g_thr (t_g s)) t = Some Idle /\ NoDup (t_mine s) /\
    guard (fun h => In h (t_mine s)) (t_g s).
  Definition town (s : tst) (us : list ublock) : Prop :=
    settled s /\ exists hs, Permutation hs (t_mine s) /\ Forall2 (held (g_tab (t_g s))) hs us.

  Lemma fine_tab mine g log : fine mine g log -> Forall (u_ok (su_amax su)) (live (g_tab g)) /\ pairwise disjoint_u (live (g_tab g)).
  Proof.
    intros (s & (cs & R & _) & _). pose proof (ar_ok _ _ _ _ _ _ _ _ R) as H1. pose proof (ar_disj _ _ _ _ _ _ _ _ R) as H2.
    apply Forall_app in H1. apply AllocFacts.pairwise_app in H2. split; [apply H1|apply H2].
  Qed.
  Lemma fine_u mine g log h u : fine mine g log -> get h (g_tab g) = Some u -> u_ok (su_amax su) u.
  Proof.
    intros Hf G. destruct (fine_tab _ _ _ Hf) as [H _]. rewrite Forall_forall in H. apply H. apply live_in. exists h. exact G.
  Qed.
  Lemma fine_disj mine g log h k u v : fine mine g log -> h <> k -> get h (g_tab g) = Some u -> get k (g_tab g) = Some v -> disjoint_u u v.
  Proof.
    intros Hf N G1 G2. destruct (fine_tab _ _ _ Hf) as [_ H]. eapply (get_pairwise disjoint_u disjoint_u_sym); eassumption.
  Qed.

  Lemma within_in c r x : within c r -> in_u x c -> in_u x r.
  Proof. intros [->|(_ & _ & L & _)] H; [exact H|]. unfold in_u in H. lia. Qed.
  Lemma within_ok c r : within c r -> u_ok (su_amax su) r -> u_ok (su_amax su) c.
  Proof.
    intros [->|(P & Ly & L & Z)] H; [exact H|]. destruct c as [cp cl cy], r as [rp rl ry]. cbn in *. subst.
    destruct H as ((G1 & G2 & G3 & G4) & G5 & G6). cbn in *. split; [split; [exact G1|split; [exact G2|cbn; lia]]|]. split; assumption.
  Qed.

  Lemma held_ok mine g log hs us : fine mine g log -> Forall2 (held (g_tab g)) hs us -> Forall (u_ok (su_amax su)) us.
  Proof.
    intros Hf H. induction H as [|h c hs us (r & G & Wi) _ IH]; constructor; [|exact IH].
    apply (within_ok c r Wi). apply (fine_u mine g log h r Hf G).
  Qed.
  Lemma held_disj mine g log hs us : fine mine g log -> NoDup hs -> Forall2 (held (g_tab g)) hs us -> pairwise disjoint_u us.
  Proof.
    intros Hf N H. induction H as [|h c hs us (r & G & Wi) H IH]; [exact Logic.I|]. inversion N as [|? ? N1 N2]; subst.
    split; [|apply IH; exact N2]. clear IH N N2. induction H as [|k d hs us (q & Gq & Wq) H IH]; constructor.
    - intros x H1 H2. apply (fine_disj mine g log h k r q Hf) with (x := x); auto.
      + intros ->. apply N1. left. reflexivity.
      + eapply within_in; eassumption.
      + eapply within_in; eassumption.
    - apply IH. intros X. apply N1. right. exact X.
  Qed.
  Lemma held_in tab hs us u : Forall2 (held tab) hs us -> In u us -> exists h, In h hs /\ held tab h u.
  Proof.
    intros H. induction H as [|h c hs us Hh H IH]; [intros []|]. intros [<-|X]; [exists h; split; [left; reflexivity|exact Hh]|].
    destruct (IH X) as (k & K1 & K2). exists k. split; [right; exact K1|exact K2].
  Qed.

  (** Writing into one's own blocks. *)
  Lemma town_write s us m : town s us -> (forall x, (forall u, In u us -> ~ in_u x u) -> m x = cmem (t_g s) x) ->
    town (set_mem su s m) us.
  Proof.
    intros ((Hf & Hi & Nd & Hg) & hs & Hp & Hh) Hm. pose proof Hf as Hf0.
    destruct s as [g mine log todo]. unfold settled, town, set_mem in *. cbn [t_g t_mine t_log t_todo] in *.
    destruct g as [tab thr k [ar w]]. cbn [g_tab g_thr g_lock g_aw fst snd] in *.
    assert (Hour : forall u x, In u us -> in_u x u -> exists h r, In h mine /\ get h tab = Some r /\ in_u x r).
    { intros u x Hu Hx. destruct (held_in _ _ _ _ Hh Hu) as (h & H1 & r & G & Wi). exists h, r.
      split; [eapply Permutation_in; eassumption|]. split; [exact G|]. eapply within_in; eassumption. }
    assert (Hoth : forall h u, get h tab = Some u -> ~ In h mine -> same_on [u] (bw_mem w) m).
    { intros h u G N v x [<-|[]] Hx. apply Hm. intros c Hc Hxc. destruct (Hour c x Hc Hxc) as (h2 & r & H1 & H2 & H3).
      refine (fine_disj mine _ log h h2 u r Hf0 _ G H2 x Hx H3). intros ->. contradiction. }
    split; [|exists hs; split; assumption]. split; [|split; [exact Hi|split; assumption]].
    destruct Hf as (s & (cs & R & Tr & Mn & Ag & Lk & Pc & Hn) & Hal & Hod). exists (forget 0 mine s). split; [|split; [apply forget_alike; exact Hal|exact Hod]].
    exists cs. unfold cinvx. cbn [g_tab g_thr g_lock g_aw fst snd] in *.
    pose proof R as R0. split; [|split; [exact Tr|split; [exact Mn|split; [|split; [exact Lk|split; [|exact Hn]]]]]].
    - apply (arep_write_us _ _ _ _ (su_ct su Hok) _ _ _ _ _ m R). intros x Hx. apply Hm. intros u Hu Hxu.
      destruct (Hour u x Hu Hxu) as (h & r & _ & G & H3). apply (Hx r); [|exact H3]. apply in_or_app. left. apply live_in. exists h. exact G.
    - apply (forget_agrees (bw_mem w)); [exact Ag|]. exact Hoth.
    - intros t' p Hp'. specialize (Pc t' p Hp').
      apply (pc_ok_other su cs cs tab tab (bw_mem w) m p); [| lia | |auto|exact Pc].
      + intros h u Eh G. split; [exact G|]. apply (Hoth h u G). intros X.
        destruct (Nat.eq_dec t' t) as [Et|N]; [rewrite Et in Hp'; cbn [t_g g_thr] in Hp'; rewrite Hi in Hp'; injection Hp' as <-; discriminate Eh|].
        apply (Hg t' p h N Hp' Eh X).
      + intros u x Hu Hx. apply Hm. intros c Hc Hxc. destruct (Hour c x Hc Hxc) as (h2 & r & H1 & H2 & H3).
        pose proof (ar_disj _ _ _ _ _ _ _ _ R0) as D. apply AllocFacts.pairwise_app in D. destruct D as (_ & _ & D).
        refine (D r u _ _ x H3 Hx); [apply live_in; exists h2; exact H2|]. apply in_flat_map. exists p. split; [eapply nth_error_In; exact Hp'|exact Hu].
  Qed.

  (** ** Calls *)

  Lemma not_busy g mine log h : fine mine g log -> nth_error (g_thr g) t = Some Idle -> guard (fun h => In h mine) g -> In h mine ->
    busy h (g_thr g) = false.
  Proof.
    intros Hf Hi Hg Hh. destruct (busy h (g_thr g)) eqn:B; [|reflexivity]. exfalso. apply existsb_exists in B. destruct B as (p & Hp & E).
    destruct (pc_handle p) as [k|] eqn:Ek; [|discriminate E]. apply Nat.eqb_eq in E. subst k.
    apply In_nth_error in Hp. destruct Hp as (t' & Hp). destruct (Nat.eq_dec t' t) as [->|N].
    - rewrite Hi in Hp. injection Hp as <-. discriminate Ek.
    - apply (Hg t' p h N Hp Ek Hh).
  Qed.

  (** A call of the client is one that the machine accepts. *)
  Definition proper (s : tst) (j : job) : Prop :=
    match j with
    | JAlloc l => req_ok (su_smax su) l
    | JResize h u old new => In h (t_mine s) /\ get h (g_tab (t_g s)) = Some u /\ fits old u /\ req_ok (su_smax su) new
    | JDealloc h u l => In h (t_mine s) /\ get h (g_tab (t_g s)) = Some u /\ fits l u
    end.

  Lemma req_size l : req_ok (su_smax su) l -> 0 <= l_size l <= USIZE_MAX.
  Proof.
    intros R. pose proof (su_smax_ok _ Hok). unfold req_ok, req_okb in R. apply andb_true_iff in R. destruct R as [R R3].
    apply andb_true_iff in R. destruct R as [R1 R2]. apply is_pow2_spec in R1. destruct R1 as (k & Hk & Ek).
    pose proof (Z.pow_pos_nonneg 2 k). apply Z.leb_le in R2, R3. lia.
  Qed.

  Lemma start_eq s j : settled s -> proper s j ->
    cstep su (Start t (job_op j)) (t_g s) = ORet [Call t (job_op j)]
      (mkG (g_tab (t_g s)) (set_nth t (WantRead j) (g_thr (t_g s))) (g_lock (t_g s)) (g_aw (t_g s))).
  Proof.
    intros (Hf & Hi & _ & Hg) Hp. unfold cstep. unfold bind at 1, get_g. rewrite Hi. unfold begin. unfold bind at 1, get_g.
    destruct j as [l|h u old new|h u l]; cbn [job_op proper] in *.
    - rewrite Hp. reflexivity.
    - destruct Hp as (Hh & G & F & R). rewrite G, (not_busy _ _ _ _ Hf Hi Hg Hh). apply fitsb_spec in F. rewrite F, R. reflexivity.
    - destruct Hp as (Hh & G & F). rewrite G, (not_busy _ _ _ _ Hf Hi Hg Hh). apply fitsb_spec in F. rewrite F. reflexivity.
  Qed.

  Lemma call_ok s j f hs us : town s us -> Permutation hs (t_mine s) -> Forall2 (held (g_tab (t_g s))) hs us -> proper s j ->
    wp (call su t (job_op j) f) s (fun r s' => exists hd,
      t_mine s' = f hd (t_mine s) /\ final su t (t_mine s) j (t_g s) hd r (t_g s') (t_log s')).
  Proof.
    intros (Hs & _) Hp Hh Hpr. pose proof Hs as (Hf & Hi & Nd & Hg). unfold wp, call, whole. unfold bind at 1. rewrite (start_eq s j Hs Hpr).
    set (g1 := mkG _ _ _ _).
    assert (Hlive : forall h, In h (t_mine s) -> exists u, get h (g_tab (t_g s)) = Some u).
    { intros h X. apply (Permutation_in h (Permutation_sym Hp)) in X. clear - Hh X.
      induction Hh as [|k c hs us (r & G & _) H IH]; [destruct X|]. destruct X as [<-|X]; [eauto|apply IH; exact X]. }
    assert (Hjh : forall h, job_handle j = Some h -> In h (t_mine s)).
    { intros h E. destruct j; cbn in E; try discriminate E; injection E as <-; apply Hpr. }
    assert (Hju : match j with JAlloc _ => True | JResize h u _ _ | JDealloc h u _ => get h (g_tab (t_g s)) = Some u end).
    { destruct j; [exact Logic.I|apply Hpr|apply Hpr]. }
    assert (Hjf : match j with JResize _ u old _ => fits old u | JDealloc _ u l => fits l u | JAlloc _ => True end).
    { destruct j; [exact Logic.I|apply Hpr|apply Hpr]. }
    assert (Hjs : 0 <= l_size (job_layout j) <= USIZE_MAX).
    { destruct j as [l|h u old new|h u l]; cbn [job_layout].
      - apply req_size. exact Hpr.
      - apply req_size. apply Hpr.
      - destruct Hpr as (_ & G & F1 & F2). destruct (fine_u _ _ _ _ _ Hf G) as ((G1 & G2 & G3 & G4) & G5 & G6).
        pose proof (su_amax_ok _ Hok). cbn in *. lia. }
    assert (Hm : mid su t (t_mine s) j (t_g s) None g1 (t_log s ++ [Call t (job_op j)])).
    { pose proof (fine_step su Hok (t_mine s) (Start t (job_op j)) (t_g s) (t_log s) Hf) as W. unfold wp in W.
      rewrite (start_eq s j Hs Hpr) in W. split; [exact W|]. exists (WantRead j). cbn [g1 g_thr g_tab].
      split; [apply (nth_set_same _ _ _ _ Hi)|].
      assert (Ho : forall h, ours (t_mine s) (WantRead j) h -> In h (t_mine s)) by (intros h [X|X]; [exact X|apply Hjh; exact X]).
      split; [intros t2 p2 h N H2 H3 H4; unfold g1 in H2; cbn [g_thr] in H2; rewrite nth_set_other in H2 by congruence; apply (Hg t2 p2 h N H2 H3 (Ho h H4))|].
      split; [intros h X; destruct (Hlive h (Ho h X)) as (u & G); apply (get_len _ _ _ G)|].
      left. split; [reflexivity|]. split; [reflexivity|]. split; [constructor|]. split; [reflexivity|].
      intros h u _ _ G. split; [exact G|apply same_on_refl]. }
    pose proof (begun su Hok t (t_mine s) j (t_g s) Hjh Hju Hjf Hjs (t_todo s) [Call t (job_op j)] (t_log s) g1 Hm) as W. unfold wp in W.
    match type of W with match ?x with _ => _ end => match goal with |- context [match ?y with _ => _ end] => change y with x; destruct x as [[[[es todo'] hd] r] g'| | |] end end;
      try contradiction.
    exists hd. split; [reflexivity|exact W].
  Qed.
End Own.
