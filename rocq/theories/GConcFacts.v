(** The global allocator used by many threads. *)
From Coq Require Import Permutation.
From Verif Require Import Base BaseFacts Alloc AllocFacts Arena ArenaFacts ArenaInv ArenaOps
  BlinkAlloc BlinkFacts History HistoryFacts Frame ProxyFacts Setup SetupFacts SetupOps
  Conc ConcFacts ConcSteps ConcProps ConcShape Shared SharedFacts GConc.

Lemma nlive_live {T} (t : list (option T)) : nlive t = Z.of_nat (length (live t)).
Proof. unfold nlive. f_equal. induction t as [|[x|] t IH]; cbn; congruence. Qed.
Lemma nlive_app {T} (t1 t2 : list (option T)) : nlive (t1 ++ t2) = nlive t1 + nlive t2.
Proof. rewrite !nlive_live, live_app, app_length. lia. Qed.
Lemma nlive_some {T} h (t : list (option T)) x y : get h t = Some x -> nlive (set_nth h (Some y) t) = nlive t.
Proof.
  intros G. destruct (tab_split _ _ _ G) as (l0 & P1 & P2 & _). rewrite !nlive_live.
  rewrite (Permutation_length P1), (Permutation_length (P2 y)). reflexivity.
Qed.
Lemma nlive_none {T} h (t : list (option T)) x : get h t = Some x -> nlive (set_nth h None t) = nlive t - 1.
Proof.
  intros G. destruct (tab_split _ _ _ G) as (l0 & P1 & _ & P2 & _). rewrite !nlive_live.
  rewrite (Permutation_length P1), P2. cbn [length]. lia.
Qed.
Lemma nlive_gone {T} (t : list (option T)) : nlive (map (fun _ => @None T) t) = 0.
Proof. rewrite nlive_live, live_none. reflexivity. Qed.

(** How many of a kind. *)
Definition cnt {T} (f : T -> bool) (l : list T) : Z := Z.of_nat (length (filter f l)).
Lemma cnt_set {T} (f : T -> bool) t x y l : nth_error l t = Some x ->
  cnt f (set_nth t y l) = cnt f l + (if f y then 1 else 0) - (if f x then 1 else 0).
Proof.
  unfold cnt. revert t. induction l as [|a l IH]; intros [|t] E; cbn in E; try discriminate.
  - inversion E; subst. cbn [set_nth filter]. destruct (f x), (f y); cbn [length]; lia.
  - specialize (IH t E). cbn [set_nth filter]. destruct (f a); cbn [length]; lia.
Qed.
Lemma cnt_none {T} (f : T -> bool) l : existsb f l = false -> cnt f l = 0.
Proof.
  unfold cnt. induction l as [|a l IH]; cbn; [reflexivity|]. destruct (f a); cbn; [discriminate|]. exact IH.
Qed.

Lemma after_quiet n t es q : quietly t es -> after n es q = q.
Proof. intros [-> | ->]; reflexivity. Qed.
Lemma sevs_quiet t es s : quietly t es -> sevs es s = s.
Proof. intros [-> | ->]; reflexivity. Qed.
Lemma after_lin n t pre o r q : quietly t pre -> after n (pre ++ [Lin t o r]) q = after1 n q (Lin t o r).
Proof. intros [-> | ->]; reflexivity. Qed.
Lemma sevs_lin t pre o r s : quietly t pre -> sevs (pre ++ [Lin t o r]) s = sstep o (option_map b_len r) s.
Proof. intros [-> | ->]; reflexivity. Qed.

(** An operation does not change other buffers. *)
Lemma sstep_other j r s h : match job_handle j with Some h' => h' <> h | None => True end ->
  (h < length s)%nat -> get h (sstep (job_op j) r s) = get h s.
Proof.
  intros N L. destruct j as [l|h' u old new|h' u l]; cbn [job_op sstep job_handle] in *.
  - destruct r; [|reflexivity]. unfold get. rewrite nth_error_app1 by exact L. reflexivity.
  - destruct r; [|reflexivity]. destruct (get h' s); [|reflexivity].
    unfold get. rewrite nth_set_other by exact N. reflexivity.
  - destruct (get h' s) as [b|]; [|reflexivity]. destruct (s_fits l b); [|reflexivity].
    unfold get. rewrite nth_set_other by exact N. reflexivity.
Qed.

Lemma nth_repeat_lt {T} (x d : T) n k : (k < n)%nat -> nth k (repeat x n) d = x.
Proof. revert k. induction n as [|n IH]; intros [|k] L; cbn; [lia|lia|reflexivity|]. apply IH. lia. Qed.

Section Facts.
  Variable su : setup.
  Hypothesis Hok : setup_ok su.
  Notation dbg := (su_dbg su).
  Notation amax := (su_amax su).

  (** What a step that begins an operation can do. *)
  Inductive begun (t : nat) (o : op) (g : gst) (es : list event) (g' : gst) : Prop :=
  | be_skip : es = [] -> g' = g -> begun t o g es g'
  | be_call j : nth_error (g_thr g) t = Some Idle -> job_op j = o -> es = [Call t o] ->
      g_thr g' = set_nth t (WantRead j) (g_thr g) -> g_tab g' = g_tab g -> begun t o g es g'
  | be_write h off cs u : nth_error (g_thr g) t = Some Idle -> o = OpWrite h off cs ->
      get h (g_tab g) = Some u -> 0 <= off -> off + Z.of_nat (length cs) <= u_len u ->
      es = [Call t o; Lin t o None; Return t] -> g_thr g' = g_thr g -> g_tab g' = g_tab g -> begun t o g es g'
  | be_reset : nth_error (g_thr g) t = Some Idle -> o = OpReset true -> es = [Call t o; Lin t o None; Return t] ->
      g_thr g' = g_thr g -> g_tab g' = map (fun _ => None) (g_tab g) -> begun t o g es g'.

  Lemma start_begun t o g es g' : cstep su (Start t o) g = ORet es g' -> begun t o g es g'.
  Proof.
    unfold cstep, bind at 1, get_g. destruct (nth_error (g_thr g) t) as [[]|] eqn:Hp;
      try (intros E; inversion E; subst; constructor; reflexivity).
    unfold begin. unfold bind at 1, get_g.
    assert (Hs : ret [] g = ORet es g' -> begun t o g es g') by (intros E; inversion E; subst; constructor; reflexivity).
    assert (Hb : forall j, job_op j = o -> (become t (WantRead j) ;;; ret [Call t o]) g = ORet es g' -> begun t o g es g').
    { intros j Ej E. inversion E; subst. apply (be_call _ _ _ _ _ j); auto. }
    destruct o as [l z|h off cl|h l|h old new|h old new|keep]; try exact Hs.
    - destruct z; [exact Hs|]. destruct (req_okb _ _); [|exact Hs]. apply (Hb (JAlloc l)). reflexivity.
    - destruct (get h (g_tab g)) as [u|] eqn:G; [|exact Hs]. destruct (negb _ && _ && _) eqn:Ec; [|exact Hs].
      apply andb_true_iff in Ec. destruct Ec as [Ec E2]. apply andb_true_iff in Ec. destruct Ec as [_ E1].
      intros E. cbn in E. inversion E; subst. apply (be_write t _ g _ _ h off cl u); auto; lia.
    - destruct (get h (g_tab g)) as [u|]; [|exact Hs]. destruct (negb _ && _); [|exact Hs].
      apply (Hb (JDealloc h u l)). reflexivity.
    - destruct (get h (g_tab g)) as [u|]; [|exact Hs]. destruct (negb _ && _ && _); [|exact Hs].
      apply (Hb (JResize h u old new)). reflexivity.
    - destruct keep; [|exact Hs]. destruct (forallb away (g_thr g)); [|exact Hs].
      unfold bind, on_aw, put_tab, ret. destruct (do_reset su true (g_aw g)); try discriminate.
      intros E; inversion E; subst. apply be_reset; auto.
  Qed.

  (** ** The invariant *)
  Definition fit (p : pc) (q : post) : Prop :=
    match q with
    | PNone | PZero _ | PUp _ _ | PDown => pc_job p = None
    | PAlloc _ => exists l, pc_job p = Some (JAlloc l) /\ 1 <= l_size l
    | PDealloc => exists h u l, pc_job p = Some (JDealloc h u l)
    | PRealloc => exists h u old new, pc_job p = Some (JResize h u old new) /\ 1 <= l_size new
    | PReset => p = Idle
    end.
  Definition zeros (b : sbuf) : Prop := forall i, 0 <= i < s_len b -> s_at b i = Some (Byte 0).
  Definition kept (m : mst) (s : list (option sbuf)) (t : nat) (q : post) (h : nat) : Prop :=
    (exists b, get h s = Some b /\ (q = PUp h true -> zeros b)) /\
    (forall t' p', t' <> t -> nth_error (g_thr (m_g m)) t' = Some p' -> pc_handle p' <> Some h) /\
    (forall t' q', t' <> t -> nth_error (m_post m) t' = Some q' -> pending q' <> Some h).

  Record minv (m : mst) (s s2 : list (option sbuf)) : Prop := {
    mi_o : oinv su (m_o m) s s2;
    mi_len : length (m_post m) = length (g_thr (m_g m));
    mi_at : forall t p q, nth_error (g_thr (m_g m)) t = Some p -> nth_error (m_post m) t = Some q -> fit p q;
    mi_pend : forall t q h, nth_error (m_post m) t = Some q -> pending q = Some h -> kept m s t q h;
    mi_size : forall h u, get h (g_tab (m_g m)) = Some u -> 1 <= l_size (u_layout u);
    mi_count : m_count m = if dbg then wrap (nlive (g_tab (m_g m)) + m_lost m + cnt is_down (m_post m) - cnt is_pending (m_post m)) else 0
  }.

  Lemma oinv_job o s s2 t p j : oinv su o s s2 -> nth_error (g_thr (o_g o)) t = Some p -> pc_job p = Some j ->
    job_ok su (g_tab (o_g o)) j /\ pc_handle p = job_handle j.
  Proof.
    intros ((cs & _ & _ & _ & _ & _ & Hpc & _) & _) Hp Ej. specialize (Hpc t p Hp).
    destruct p; cbn in Ej; try discriminate; try (inversion Ej; subst; cbn in Hpc; split; [tauto|reflexivity]).
    destruct next as [j'|]; try discriminate. inversion Ej; subst. cbn in Hpc |- *. tauto.
  Qed.
  Lemma oinv_unlock o s s2 t p : oinv su o s s2 -> nth_error (g_thr (o_g o)) t = Some p -> unlock_ok p.
  Proof.
    intros ((cs & _ & _ & _ & _ & _ & Hpc & _) & _) Hp. specialize (Hpc t p Hp).
    destruct p; cbn; auto. destruct next; auto. cbn in Hpc. tauto.
  Qed.
  Lemma oinv_handle o s s2 t p h : oinv su o s s2 -> nth_error (g_thr (o_g o)) t = Some p -> pc_handle p = Some h ->
    (h < length (g_tab (o_g o)))%nat.
  Proof.
    intros Hi Hp E. destruct (pc_job p) as [j|] eqn:Ej.
    - destruct (oinv_job _ _ _ _ _ _ Hi Hp Ej) as [J Eh]. rewrite Eh in E.
      destruct j; cbn in E, J; try discriminate; inversion E; subst; apply (get_len _ _ u), J.
    - destruct Hi as ((cs & _ & _ & _ & _ & _ & Hpc & _) & _). specialize (Hpc t p Hp).
      destruct p; cbn in Ej, E; try discriminate. destruct next; try discriminate. subst h0. exact Hpc.
  Qed.
  Lemma oinv_len o s s2 : oinv su o s s2 -> length s = length (g_tab (o_g o)).
  Proof.
    intros ((cs & _ & _ & _ & Ha & _) & _). symmetry. apply (agrees_length _ _ _ Ha).
  Qed.
  Lemma oinv_live o s s2 h b : oinv su o s s2 -> get h s = Some b ->
    exists u, get h (g_tab (o_g o)) = Some u /\ buf_agrees (omem o) u b.
  Proof.
    intros ((cs & _ & _ & _ & Ha & _) & _) G. unfold omem. unfold agrees in Ha.
    revert h G. induction Ha as [|x y tab s' Hxy _ IH]; intros [|h] G; try discriminate.
    - unfold get in *. cbn in *. destruct y; inversion G; subst. destruct x; cbn in Hxy; [|contradiction]. eauto.
    - apply (IH h G).
  Qed.
  Lemma oinv_buf o s s2 h u : oinv su o s s2 -> get h (g_tab (o_g o)) = Some u ->
    exists b, get h s = Some b /\ buf_agrees (omem o) u b.
  Proof.
    intros ((cs & _ & _ & _ & Ha & _) & _) G. unfold omem. unfold agrees in Ha.
    revert h G. induction Ha as [|x y tab s' Hxy _ IH]; intros [|h] G; try discriminate.
    - unfold get in *. cbn in *. destruct x; inversion G; subst. destruct y; cbn in Hxy; [|contradiction]. eauto.
    - apply (IH h G).
  Qed.

  Lemma get_len' {T} h (t : list (option T)) u : get h t = Some u -> (h < length t)%nat.
  Proof. apply get_len. Qed.

  (** A step of a thread inside. *)
  Lemma shape_ok on c lost posts o s s2 t p q es g' :
    minv (mkMst on c posts o lost) s s2 ->
    nth_error (g_thr (o_g o)) t = Some p -> nth_error posts t = Some q ->
    shape t p (o_g o) es g' -> oinv su (mkO (o_tab o) g') (sevs es s) s2 ->
    minv (mkMst on c (set_nth t (after (length (g_tab (o_g o))) es q) posts) (mkO (o_tab o) g') lost) (sevs es s) s2.
  Proof.
    intros [Io Il Ia Ip Is Ic] Hp Hq Sh Io'. unfold m_g in *. cbn [m_o m_post m_count m_lost m_on] in *.
    pose proof (Ia t p q Hp Hq) as Hf.
    destruct Sh as [p' E1 E2 Q Ej Eph Eh|j r pre wr E1 E2 Ej Q Ee Eh|wr h Ep E1 E2 Ee].
    - (* nothing happens *)
      rewrite (after_quiet _ _ _ _ Q), (set_nth_same _ _ _ Hq). rewrite (sevs_quiet _ _ _ Q) in *.
      split; unfold m_g; cbn [m_o m_post m_count m_lost o_g]; auto; try (rewrite E2; auto; fail).
      + rewrite E1, set_nth_length. exact Il.
      + intros t1 p1 q1 H1 H2. rewrite E1 in H1. destruct (Nat.eq_dec t t1) as [<-|N].
        * rewrite (nth_set_same _ _ _ _ Hp) in H1. inversion H1; subst p1. rewrite Hq in H2. inversion H2; subst q1.
          destruct q; cbn [fit] in *; rewrite ?Ej; auto. subst p.
          cbn in Eph. destruct p'; cbn in Eph; try discriminate; auto. destruct next; discriminate.
        * rewrite nth_set_other in H1 by exact N. apply (Ia t1); auto.
      + intros t1 q1 h1 H1 H2. destruct (Ip t1 q1 h1 H1 H2) as (K1 & K2 & K3). split; [exact K1|]. split; [|exact K3].
        unfold m_g in *. cbn [m_o o_g] in *. intros t' p1 N H. rewrite E1 in H. destruct (Nat.eq_dec t t') as [<-|N'].
        * rewrite (nth_set_same _ _ _ _ Hp) in H. inversion H; subst p1. rewrite Eh. apply (K2 t); auto.
        * rewrite nth_set_other in H by exact N'. apply (K2 t'); auto.
    - (* the operation takes effect *)
      subst es. rewrite (after_lin _ _ _ _ _ _ Q). rewrite (sevs_lin _ _ _ _ _ Q) in *.
      destruct (oinv_job _ _ _ _ _ _ Io Hp Ej) as [Jok _].
      set (q' := after1 (length (g_tab (o_g o))) q (Lin t (job_op j) r)).
      pose proof (oinv_len _ _ _ Io) as Ls.
      (* other threads' pending blocks *)
      assert (Hold : forall t1 q1 h1, t1 <> t -> nth_error posts t1 = Some q1 -> pending q1 = Some h1 ->
        (exists b, get h1 (sstep (job_op j) (option_map b_len r) s) = Some b /\ (q1 = PUp h1 true -> zeros b)) /\
        fin_handle j r (g_tab (o_g o)) <> Some h1 /\ (h1 < length (g_tab (o_g o)))%nat).
      { intros t1 q1 h1 N H1 H2. destruct (Ip t1 q1 h1 H1 H2) as ((b & G & Z) & K2 & K3).
        pose proof (K2 t p (not_eq_sym N) Hp) as Nh. rewrite Eh in Nh.
        pose proof (get_len _ _ _ G) as L. split; [|split; [|lia]].
        - exists b. rewrite sstep_other; [auto| |exact L]. destruct (job_handle j); [congruence|exact I].
        - rewrite Ls in L. destruct j, r; cbn [fin_handle job_handle] in *; try congruence. intros X; inversion X; lia. }
      (* the thread itself *)
      assert (Hself : fit (Unlock wr None (fin_handle j r (g_tab (o_g o)))) q' /\
        (forall h1, pending q' = Some h1 -> h1 = length (g_tab (o_g o)) /\ q' <> PUp h1 true /\ exists l b, j = JAlloc l /\ r = Some b) /\
        (is_pending q = false /\ is_down q = false) /\
        nlive (g_tab g') + (if is_down q' then 1 else 0) - (if is_pending q' then 1 else 0) = nlive (g_tab (o_g o)) /\
        (forall h u, get h (g_tab g') = Some u -> 1 <= l_size (u_layout u))).
      { rewrite E2. destruct q; cbn [fit] in Hf; try (rewrite Ej in Hf; discriminate).
        - destruct Hf as (l & E & Hl). rewrite Ej in E. inversion E; subst j. unfold q'. cbn [after1 fin_tab fin_handle job_op].
          destruct r as [b|]; [|destruct z; cbn; repeat split; try discriminate; try lia; exact Is].
          rewrite nlive_app. change (nlive [Some (mkU (b_ptr b) (b_len b) l)]) with 1.
          assert (Hs' : forall h u, get h (g_tab (o_g o) ++ [Some (mkU (b_ptr b) (b_len b) l)]) = Some u -> 1 <= l_size (u_layout u)).
          { intros h u G. assert (Hin : In u (live (g_tab (o_g o) ++ [Some (mkU (b_ptr b) (b_len b) l)]))) by (apply live_in; eauto).
            rewrite live_app in Hin. apply in_app_or in Hin. destruct Hin as [Hin|[<-|[]]]; [|exact Hl].
            apply live_in in Hin. destruct Hin as [h' G']. apply (Is h' u G'). }
          destruct z; cbn [is_down is_pending pending fit pc_job];
            (split; [reflexivity|]; split; [intros h1 X; inversion X; subst; split; [reflexivity|]; split; [discriminate|eauto]|];
             split; [split; reflexivity|]; split; [lia|exact Hs']).
        - destruct Hf as (h & u & l & E). rewrite Ej in E. inversion E; subst j. unfold q'. cbn [after1 fin_tab fin_handle job_op fit pc_job pending is_down is_pending].
          cbn [job_ok] in Jok. destruct Jok as [G _]. rewrite (nlive_none _ _ _ G).
          split; [reflexivity|]. split; [discriminate|]. split; [split; reflexivity|]. split; [lia|].
          intros h' u' G'. rewrite get_set_nth in G' by apply (get_len _ _ _ G). destruct (Nat.eqb_spec h h'); [discriminate|apply (Is h' u' G')].
        - destruct Hf as (h & u & old & new & E & Hl). rewrite Ej in E. inversion E; subst j. unfold q'. cbn [after1 fin_tab fin_handle job_op fit pc_job pending is_down is_pending].
          cbn [job_ok] in Jok. destruct Jok as [G _].
          split; [reflexivity|]. split; [discriminate|]. split; [split; reflexivity|].
          destruct r as [b|]; cbn [fin_tab].
          + rewrite (nlive_some _ _ _ _ G). split; [lia|].
            intros h' u' G'. rewrite get_set_nth in G' by apply (get_len _ _ _ G). destruct (Nat.eqb_spec h h'); [|apply (Is h' u' G')].
            inversion G'; subst. exact Hl.
          + split; [lia|exact Is].
        - rewrite Hf in Ej. discriminate. }
      destruct Hself as (F' & P' & (Nq1 & Nq2) & Cn & Sz).
      split; unfold m_g; cbn [m_o m_post m_count m_lost o_g]; auto.
      + rewrite E1, !set_nth_length. exact Il.
      + intros t1 p1 q1 H1 H2. rewrite E1 in H1. destruct (Nat.eq_dec t t1) as [<-|N].
        * rewrite (nth_set_same _ _ _ _ Hp) in H1. rewrite (nth_set_same _ _ _ _ Hq) in H2. inversion H1; inversion H2; subst. exact F'.
        * rewrite nth_set_other in H1 by exact N. rewrite nth_set_other in H2 by exact N. apply (Ia t1); auto.
      + intros t1 q1 h1 H1 H2. destruct (Nat.eq_dec t t1) as [<-|N].
        * rewrite (nth_set_same _ _ _ _ Hq) in H1. inversion H1; subst q1. destruct (P' h1 H2) as (-> & NZ & l & b & -> & ->).
          split; [|split].
          -- exists (mkS l (b_len b) (fun _ => None)). split; [|intros X; destruct (NZ X)].
             cbn [job_op sstep option_map]. rewrite <- Ls. unfold get. rewrite nth_error_app2 by lia. rewrite Nat.sub_diag. reflexivity.
          -- intros t' p1 N H. unfold m_g in H. cbn [m_o o_g] in H. rewrite E1, nth_set_other in H by auto.
             intros X. pose proof (oinv_handle _ _ _ _ _ _ Io H X). lia.
          -- intros t' q2 N H. cbn [m_post] in H. rewrite nth_set_other in H by auto.
             intros X. destruct (Hold t' q2 _ N H X) as (_ & _ & L). lia.
        * rewrite nth_set_other in H1 by exact N. destruct (Hold t1 q1 h1 (not_eq_sym N) H1 H2) as (B & Nf & L).
          destruct (Ip t1 q1 h1 H1 H2) as (_ & K2 & K3). unfold m_g in *. cbn [m_o m_post o_g] in *.
          split; [exact B|]. unfold m_g; cbn [m_o m_post o_g]. split.
          -- intros t' p1 N' H. rewrite E1 in H. destruct (Nat.eq_dec t t') as [<-|N2].
             ++ rewrite (nth_set_same _ _ _ _ Hp) in H. inversion H; subst p1. exact Nf.
             ++ rewrite nth_set_other in H by exact N2. apply (K2 t'); auto.
          -- intros t' q2 N' H. destruct (Nat.eq_dec t t') as [<-|N2].
             ++ rewrite (nth_set_same _ _ _ _ Hq) in H. inversion H; subst q2. intros X. destruct (P' h1 X) as (-> & _). lia.
             ++ rewrite nth_set_other in H by exact N2. apply (K3 t'); auto.
      + rewrite Ic. destruct dbg; [|reflexivity]. f_equal. fold q'.
        rewrite (cnt_set is_down t q q' posts Hq), (cnt_set is_pending t q q' posts Hq), Nq1, Nq2. lia.
    - (* it returns *)
      subst es p. cbn [after fold_left after1 sevs sev] in *. rewrite (set_nth_same _ _ _ Hq).
      split; unfold m_g; cbn [m_o m_post m_count m_lost o_g]; auto; try (rewrite E2; auto; fail).
      + rewrite E1, set_nth_length. exact Il.
      + intros t1 p1 q1 H1 H2. rewrite E1 in H1. destruct (Nat.eq_dec t t1) as [<-|N].
        * rewrite (nth_set_same _ _ _ _ Hp) in H1. inversion H1; subst p1. rewrite Hq in H2. inversion H2; subst q1.
          destruct q; cbn [fit pc_job] in *; auto; try (destruct Hf as (l & E & _); discriminate);
            try (destruct Hf as (h1 & u & l & E); discriminate); try (destruct Hf as (h1 & u & l & l' & E & _); discriminate).
        * rewrite nth_set_other in H1 by exact N. apply (Ia t1); auto.
      + intros t1 q1 h1 H1 H2. destruct (Ip t1 q1 h1 H1 H2) as (K1 & K2 & K3). split; [exact K1|]. split; [|exact K3].
        unfold m_g in *. cbn [m_o o_g] in *. intros t' p1 N H. rewrite E1 in H. destruct (Nat.eq_dec t t') as [<-|N'].
        * rewrite (nth_set_same _ _ _ _ Hp) in H. inversion H; subst p1. discriminate.
        * rewrite nth_set_other in H by exact N'. apply (K2 t'); auto.
  Qed.

  (** Only the thread's own place changes: nothing it did concerns blocks pending elsewhere. *)
  Lemma post_ok on on' c posts o s s2 lost t q q' :
    minv (mkMst on c posts o lost) s s2 -> nth_error posts t = Some q ->
    (forall p, nth_error (g_thr (o_g o)) t = Some p -> fit p q') ->
    pending q' = None ->
    minv (mkMst on' (if dbg then wrap (c + (if is_down q' then 1 else 0) - (if is_down q then 1 else 0) + (if is_pending q then 1 else 0)) else c)
            (set_nth t q' posts) o lost) s s2.
  Proof.
    intros [Io Il Ia Ip Is Ic] Hq Hf Hn. unfold m_g in *. cbn [m_o m_post m_count m_lost m_on] in *.
    split; unfold m_g; cbn [m_o m_post m_count m_lost]; auto.
    - rewrite set_nth_length. exact Il.
    - intros t1 p1 q1 H1 H2. destruct (Nat.eq_dec t t1) as [<-|N].
      + rewrite (nth_set_same _ _ _ _ Hq) in H2. inversion H2; subst. auto.
      + rewrite nth_set_other in H2 by exact N. apply (Ia t1); auto.
    - intros t1 q1 h1 H1 H2. destruct (Nat.eq_dec t t1) as [<-|N].
      + rewrite (nth_set_same _ _ _ _ Hq) in H1. inversion H1; subst. congruence.
      + rewrite nth_set_other in H1 by exact N. destruct (Ip t1 q1 h1 H1 H2) as (K1 & K2 & K3).
        split; [exact K1|]. split; [exact K2|]. cbn [m_post] in *. intros t' q2 N' H.
        destruct (Nat.eq_dec t t') as [<-|N2].
        * rewrite (nth_set_same _ _ _ _ Hq) in H. inversion H; subst. congruence.
        * rewrite nth_set_other in H by exact N2. apply (K3 t'); auto.
    - rewrite Ic. rewrite (cnt_set is_down t q q' posts Hq), (cnt_set is_pending t q q' posts Hq).
      replace (is_pending q') with false by (unfold is_pending; rewrite Hn; reflexivity).
      destruct dbg; [|reflexivity]. unfold wrap. rewrite <- Z.add_sub_assoc, <- Z.add_assoc, Zplus_mod_idemp_l. f_equal. lia.
  Qed.

  Lemma call_ok on c lost posts o s s2 t j q g' :
    minv (mkMst on c posts o lost) s s2 ->
    nth_error (g_thr (o_g o)) t = Some Idle -> nth_error posts t = Some PNone ->
    g_thr g' = set_nth t (WantRead j) (g_thr (o_g o)) -> g_tab g' = g_tab (o_g o) ->
    oinv su (mkO (o_tab o) g') s s2 ->
    fit (WantRead j) q -> pending q = None -> is_down q = false ->
    match job_handle j with Some h => existsb (has_pending h) posts = false | None => True end ->
    minv (mkMst on c (set_nth t q posts) (mkO (o_tab o) g') lost) s s2.
  Proof.
    intros [Io Il Ia Ip Is Ic] Hp Hq E1 E2 Io' Hf Hn Hd Hh. unfold m_g in *. cbn [m_o m_post m_count m_lost m_on] in *.
    split; unfold m_g; cbn [m_o m_post m_count m_lost o_g]; auto; try (rewrite E2; auto; fail).
    - rewrite E1, !set_nth_length. exact Il.
    - intros t1 p1 q1 H1 H2. rewrite E1 in H1. destruct (Nat.eq_dec t t1) as [<-|N].
      + rewrite (nth_set_same _ _ _ _ Hp) in H1. rewrite (nth_set_same _ _ _ _ Hq) in H2. inversion H1; inversion H2; subst. exact Hf.
      + rewrite nth_set_other in H1 by exact N. rewrite nth_set_other in H2 by exact N. apply (Ia t1); auto.
    - intros t1 q1 h1 H1 H2. destruct (Nat.eq_dec t t1) as [<-|N].
      { rewrite (nth_set_same _ _ _ _ Hq) in H1. inversion H1; subst. congruence. }
      rewrite nth_set_other in H1 by exact N. destruct (Ip t1 q1 h1 H1 H2) as (K1 & K2 & K3).
      unfold m_g in *. cbn [m_o m_post o_g] in *. split; [exact K1|]. unfold m_g; cbn [m_o m_post o_g]. split.
      + intros t' p1 N' H. rewrite E1 in H. destruct (Nat.eq_dec t t') as [<-|N2].
        * rewrite (nth_set_same _ _ _ _ Hp) in H. inversion H; subst p1. cbn [pc_handle].
          destruct (job_handle j) as [h|]; [|discriminate]. intros X; inversion X; subst h.
          rewrite <- Bool.not_true_iff_false in Hh. apply Hh. apply existsb_exists. exists q1.
          split; [apply (nth_error_In _ _ H1)|]. unfold has_pending. rewrite H2. apply Nat.eqb_refl.
        * rewrite nth_set_other in H by exact N2. apply (K2 t'); auto.
      + intros t' q2 N' H. destruct (Nat.eq_dec t t') as [<-|N2].
        * rewrite (nth_set_same _ _ _ _ Hq) in H. inversion H; subst q2. congruence.
        * rewrite nth_set_other in H by exact N2. apply (K3 t'); auto.
    - rewrite Ic. destruct dbg; [|reflexivity]. f_equal. rewrite E2.
      rewrite (cnt_set is_down t _ q posts Hq), (cnt_set is_pending t _ q posts Hq), Hd.
      replace (is_pending q) with false by (unfold is_pending; rewrite Hn; reflexivity). cbn. lia.
  Qed.

  (** A write to a block that is not pending elsewhere. *)
  Lemma write_ok on c lost posts o s s2 t h off cl u q q' g' :
    minv (mkMst on c posts o lost) s s2 ->
    nth_error (g_thr (o_g o)) t = Some Idle -> nth_error posts t = Some q ->
    get h (g_tab (o_g o)) = Some u -> 0 <= off -> off + Z.of_nat (length cl) <= u_len u ->
    g_thr g' = g_thr (o_g o) -> g_tab g' = g_tab (o_g o) ->
    oinv su (mkO (o_tab o) g') (sstep (OpWrite h off cl) None s) s2 ->
    (q = PNone /\ q' = PNone /\ existsb (has_pending h) posts = false) \/
    (q = PZero h /\ q' = PUp h true /\ off = 0 /\ cl = repeat (Byte 0) (Z.to_nat (u_len u))) ->
    minv (mkMst on c (set_nth t q' posts) (mkO (o_tab o) g') lost) (sstep (OpWrite h off cl) None s) s2.
  Proof.
    intros [Io Il Ia Ip Is Ic] Hp Hq G O1 O2 E1 E2 Io' Hc. unfold m_g in *. cbn [m_o m_post m_count m_lost m_on] in *.
    destruct (oinv_buf _ _ _ _ _ Io G) as (b & Gb & Hb & Lb & _).
    assert (Hnew : exists b', get h (sstep (OpWrite h off cl) None s) = Some b' /\ s_len b' = s_len b /\
      forall i, off <= i < off + Z.of_nat (length cl) -> s_at b' i = Some (nth (Z.to_nat (i - off)) cl Undef)).
    { cbn [sstep]. rewrite Gb. rewrite <- Lb. destruct (Z.leb_spec 0 off); [|lia].
      destruct (Z.leb_spec (off + Z.of_nat (length cl)) (u_len u)); [|lia]. cbn [andb].
      eexists. split; [rewrite get_set_nth by apply (get_len _ _ _ Gb); rewrite Nat.eqb_refl; reflexivity|]. split; [reflexivity|].
      intros i Hi. cbn [s_at]. destruct (Z.leb_spec off i); [|lia]. destruct (Z.ltb_spec i (off + Z.of_nat (length cl))); [|lia].
      reflexivity. }
    assert (Hold : forall h1, h1 <> h -> get h1 (sstep (OpWrite h off cl) None s) = get h1 s).
    { intros h1 N. cbn [sstep]. rewrite Gb. destruct ((0 <=? off) && _); [|reflexivity]. unfold get. rewrite nth_set_other by auto. reflexivity. }
    split; unfold m_g; cbn [m_o m_post m_count m_lost o_g]; auto; try (rewrite E2; auto; fail).
    - rewrite E1, set_nth_length. exact Il.
    - intros t1 p1 q1 H1 H2. rewrite E1 in H1. destruct (Nat.eq_dec t t1) as [<-|N].
      + rewrite Hp in H1. rewrite (nth_set_same _ _ _ _ Hq) in H2. inversion H1; inversion H2; subst.
        destruct Hc as [(_ & -> & _)|(_ & -> & _)]; reflexivity.
      + rewrite nth_set_other in H2 by exact N. apply (Ia t1); auto.
    - intros t1 q1 h1 H1 H2.
      assert (Hps : forall t' q2, nth_error (set_nth t q' posts) t' = Some q2 ->
        exists q3, nth_error posts t' = Some q3 /\ pending q3 = pending q2).
      { intros t' q2 H. destruct (Nat.eq_dec t t') as [<-|N2].
        - rewrite (nth_set_same _ _ _ _ Hq) in H. inversion H; subst q2. exists q. split; [exact Hq|].
          destruct Hc as [(-> & -> & _)|(-> & -> & _)]; reflexivity.
        - rewrite nth_set_other in H by exact N2. eauto. }
      destruct (Hps t1 q1 H1) as (q3 & H3 & E3). rewrite H2 in E3.
      destruct (Ip t1 q3 h1 H3 E3) as ((b1 & G1 & Z1) & K2 & K3).
      unfold m_g in *. cbn [m_o m_post o_g] in *. split; [|unfold m_g; cbn [m_o m_post o_g]; split].
      + destruct (Nat.eq_dec t t1) as [<-|N].
        * rewrite (nth_set_same _ _ _ _ Hq) in H1. inversion H1; subst q1.
          destruct Hc as [(-> & -> & _)|(-> & -> & E5 & E6)]; [discriminate|]. cbn in H2. inversion H2; subst h1.
          destruct Hnew as (b' & G' & L' & A'). exists b'. split; [exact G'|]. intros _ i Hi.
          rewrite A' by (rewrite E5, E6, repeat_length; lia). f_equal. rewrite E6, E5. rewrite Z.sub_0_r. apply nth_repeat_lt.
          rewrite L', <- Lb in Hi. lia.
        * rewrite nth_set_other in H1 by exact N. rewrite H1 in H3. inversion H3; subst q3. exists b1. split; [|exact Z1].
          rewrite Hold; [exact G1|]. intros ->. destruct Hc as [(_ & _ & Hh)|(-> & _)].
          -- rewrite <- Bool.not_true_iff_false in Hh. apply Hh. apply existsb_exists. exists q1.
             split; [apply (nth_error_In _ _ H1)|]. unfold has_pending. rewrite H2. apply Nat.eqb_refl.
          -- apply (K3 t _ N Hq). reflexivity.
      + intros t' p1 N' H. rewrite E1 in H. apply (K2 t'); auto.
      + intros t' q2 N' H. destruct (Hps t' q2 H) as (q4 & H4 & E4). rewrite <- E4. apply (K3 t'); auto.
    - rewrite Ic. destruct dbg; [|reflexivity]. f_equal. rewrite E2.
      rewrite (cnt_set is_down t q q' posts Hq), (cnt_set is_pending t q q' posts Hq).
      destruct Hc as [(-> & -> & _)|(-> & -> & _)]; cbn; lia.
  Qed.

  (** A reset: nobody has a block pending. *)
  Lemma reset_ok on on' c lost posts o s s2 g' :
    minv (mkMst on c posts o lost) s s2 -> existsb is_pending posts = false ->
    g_thr g' = g_thr (o_g o) -> g_tab g' = map (fun _ => None) (g_tab (o_g o)) ->
    oinv su (mkO (o_tab o) g') (sstep (OpReset true) None s) s2 ->
    minv (mkMst on' c posts (mkO (o_tab o) g') (lost + nlive (g_tab (o_g o)))) (sstep (OpReset true) None s) s2.
  Proof.
    intros [Io Il Ia Ip Is Ic] Hn E1 E2 Io'. unfold m_g in *. cbn [m_o m_post m_count m_lost m_on] in *.
    split; unfold m_g; cbn [m_o m_post m_count m_lost o_g]; auto.
    - rewrite E1. exact Il.
    - intros t p q H1 H2. rewrite E1 in H1. apply (Ia t); auto.
    - intros t q h H1 H2. rewrite <- Bool.not_true_iff_false in Hn. destruct Hn. apply existsb_exists. exists q.
      split; [apply (nth_error_In _ _ H1)|]. unfold is_pending. rewrite H2. reflexivity.
    - intros h u G. rewrite E2 in G. exfalso.
      assert (X : In u (live (map (fun _ => @None ublock) (g_tab (o_g o))))) by (apply live_in; eauto).
      rewrite live_none in X. destruct X.
    - rewrite Ic, E2, nlive_gone. destruct dbg; [|reflexivity]. f_equal. lia.
  Qed.

  Lemma ours_inner es : inner_events (ours es) = map OurEv es.
  Proof. induction es as [|e es IH]; cbn; [reflexivity|]. f_equal. exact IH. Qed.
  Lemma inner_map es : inner_events (map MO es) = es.
  Proof. induction es; cbn; congruence. Qed.

  Notation Post s s2 := (fun es m' => minv m' (sevs (our_events (inner_events es)) s) (tevs (inner_events es) s2)).

  Lemma nothing m s s2 : minv m s s2 -> wp (ret []) m (Post s s2).
  Proof. intros H. apply wp_ret. exact H. Qed.

  Lemma direct_ok a m s s2 : minv m s s2 -> wp (direct su a) m (Post s s2).
  Proof.
    intros [Io Il Ia Ip Is Ic]. unfold direct. apply wp_bind.
    pose proof (theirs_ok su Hok (m_o m) s s2 a Io) as H. unfold wp, on_o in *.
    destruct (theirs su a (m_o m)) as [es o'| | |]; try contradiction. cbn [ret]. rewrite inner_map.
    destruct H as (Io' & Ee & E1 & E2 & _ & _). rewrite Ee. cbn [sevs fold_left].
    split; unfold m_g in *; cbn [m_o m_post m_count m_lost]; auto; rewrite ?E1, ?E2; auto.
    intros t q h H1 H2. destruct (Ip t q h H1 H2) as (K1 & K2 & K3). split; [exact K1|]. split; [|exact K3].
    unfold m_g. cbn [m_o]. rewrite E2. exact K2.
  Qed.

  (** An operation begins; [P] is what has to be shown in each case. *)
  Lemma enter_ok t o q m s s2 : minv m s s2 ->
    (forall g' es, es <> [] -> begun t o (m_g m) es g' -> oinv su (mkO (o_tab (m_o m)) g') (sevs es s) s2 ->
       minv (mkMst (m_on m) (m_count m) (set_nth t q (m_post m)) (mkO (o_tab (m_o m)) g') (m_lost m)) (sevs es s) s2) ->
    wp (enter_call su t o q) m (Post s s2).
  Proof.
    intros Hi HP. unfold enter_call. apply wp_bind. unfold inside_step.
    pose proof (ours_ok su Hok (m_o m) s s2 (Start t o) (mi_o _ _ _ Hi)) as H. unfold wp, on_o, lift_g in *.
    destruct (cstep su (Start t o) (o_g (m_o m))) as [es g'| | |] eqn:E; try contradiction. destruct H as [Io' _].
    pose proof (start_begun _ _ _ _ _ E) as Hb. fold (m_g m) in Hb.
    destruct es as [|e es].
    - cbn. destruct Hb as [_ ->| | |]; try discriminate. destruct m as [on c posts [tab2 g] lost]. exact Hi.
    - unfold bind, put_post, ret. rewrite ours_inner, our_events_map, tevs_ours. cbn [m_on m_count m_post m_o m_lost].
      apply HP; auto. discriminate.
  Qed.

  Lemma step_inside t c m s s2 p q : minv m s s2 ->
    nth_error (g_thr (m_g m)) t = Some p -> nth_error (m_post m) t = Some q ->
    (forall es g', cstep su c (m_g m) = ORet es g' -> shape t p (m_g m) es g') ->
    wp (thread_step su t c (length (g_tab (m_g m))) q) m (Post s s2).
  Proof.
    intros Hi Hp Hq Hs. unfold thread_step. apply wp_bind. unfold inside_step.
    pose proof (ours_ok su Hok (m_o m) s s2 c (mi_o _ _ _ Hi)) as H. unfold wp, on_o, lift_g in *.
    unfold m_g in *.
    destruct (cstep su c (o_g (m_o m))) as [es g'| | |] eqn:E; try contradiction. destruct H as [Io' _].
    specialize (Hs es g' eq_refl). unfold bind, put_post, ret. rewrite ours_inner, our_events_map, tevs_ours.
    cbn [m_on m_count m_post m_o m_lost]. destruct m as [on cc posts o lost]. cbn [m_on m_count m_post m_o m_lost] in *.
    apply (shape_ok on cc lost posts o s s2 t p q es g'); auto.
  Qed.

  Lemma ready_at t m : ready t m = true ->
    nth_error (g_thr (m_g m)) t = Some Idle /\ nth_error (m_post m) t = Some PNone.
  Proof.
    unfold ready. destruct (nth_error (g_thr (m_g m)) t) as [[]|]; try discriminate.
    destruct (nth_error (m_post m) t) as [[]|]; try discriminate. auto.
  Qed.
  Lemma mi_post m s s2 t p : minv m s s2 -> nth_error (g_thr (m_g m)) t = Some p -> exists q, nth_error (m_post m) t = Some q.
  Proof.
    intros Hi Hp. destruct (nth_error (m_post m) t) as [q|] eqn:E; [eauto|]. exfalso.
    apply nth_error_None in E. rewrite (mi_len _ _ _ Hi) in E.
    assert (X : (t < length (g_thr (m_g m)))%nat) by (apply nth_error_Some; congruence). lia.
  Qed.
  Lemma all_ready_none m : all_ready m = true -> existsb is_pending (m_post m) = false.
  Proof.
    unfold all_ready. intros H. apply andb_true_iff in H. destruct H as [_ H].
    induction (m_post m) as [|q l IH]; [reflexivity|]. cbn in *. apply andb_true_iff in H. destruct H as [H1 H2].
    destruct q; try discriminate. cbn. auto.
  Qed.

  Lemma mstep_ok c m s s2 : minv m s s2 -> wp (mstep su c) m (Post s s2).
  Proof.
    intros Hi. change (wp (mstep_at su c m) m (Post s s2)). pose proof (nothing m s s2 Hi) as Hno.
    destruct c as [t l z|t h|t h n|t h off cl|t|t sp|t v|t|a| |]; cbn [mstep_at].
    - (* alloc *)
      destruct (ready t m && layout_okb l && (1 <=? l_size l)) eqn:Er; [|exact Hno].
      apply andb_true_iff in Er. destruct Er as [Er El]. apply andb_true_iff in Er. destruct Er as [Er _].
      destruct (ready_at _ _ Er) as [Hp Hq]. destruct (m_on m); [|apply direct_ok; exact Hi].
      apply enter_ok; [exact Hi|]. intros g' es Ne Hb Io'. destruct m as [on cc posts o lost]; unfold m_g in *; cbn [m_on m_count m_post m_o m_lost] in *.
      destruct Hb as [E|j Hp' Ej Ee E1 E2|h off cl u _ E|_ E]; try discriminate; [congruence|].
      destruct j; cbn in Ej; try discriminate. inversion Ej; subst. cbn [sevs fold_left sev] in *.
      apply (call_ok on cc lost posts o s s2 t (JAlloc l)); auto; [|exact I]. cbn. exists l. split; [reflexivity|lia].
    - (* dealloc *)
      destruct (ready t m) eqn:Er; [|exact Hno]. destruct (ready_at _ _ Er) as [Hp Hq]. destruct (m_on m).
      + destruct (get h (g_tab (m_g m))) as [u|] eqn:G; [|exact Hno]. destruct (hidden h m) eqn:Hh; [exact Hno|].
        apply enter_ok; [exact Hi|]. intros g' es Ne Hb Io'. unfold hidden in Hh. destruct m as [on cc posts o lost]; unfold m_g in *; cbn [m_on m_count m_post m_o m_lost] in *.
        destruct Hb as [E|j Hp' Ej Ee E1 E2|h' off cl u' _ E|_ E]; try discriminate; [congruence|].
        destruct j; cbn in Ej; try discriminate. inversion Ej; subst. cbn [sevs fold_left sev] in *.
        apply (call_ok on cc lost posts o s s2 t (JDealloc h u0 (u_layout u))); auto. cbn. eauto.
      + destruct (get h (o_tab (m_o m))) as [u|]; [|exact Hno]. apply direct_ok. exact Hi.
    - (* realloc *)
      destruct (ready t m && (1 <=? n)) eqn:Er; [|exact Hno]. apply andb_true_iff in Er. destruct Er as [Er El].
      destruct (ready_at _ _ Er) as [Hp Hq]. destruct (m_on m).
      + destruct (get h (g_tab (m_g m))) as [u|] eqn:G; [|exact Hno]. cbv zeta.
        destruct (hidden h m || _) eqn:Hh; [exact Hno|]. apply orb_false_iff in Hh. destruct Hh as [Hh _].
        apply enter_ok; [exact Hi|]. intros g' es Ne Hb Io'. unfold hidden in Hh. destruct m as [on cc posts o lost]; unfold m_g in *; cbn [m_on m_count m_post m_o m_lost] in *.
        destruct Hb as [E|j Hp' Ej Ee E1 E2|h' off cl u' _ E|_ E]; try discriminate; [congruence|].
        destruct j; cbn in Ej; try discriminate. inversion Ej; subst. cbn [sevs fold_left sev] in *.
        apply (call_ok on cc lost posts o s s2 t (JResize h u0 (u_layout u) (mkLayout n (l_align (u_layout u))))); auto.
        cbn. eexists _, _, _, _. split; [reflexivity|]. cbn. lia.
      + destruct (get h (o_tab (m_o m))) as [u|]; [|exact Hno]. destruct (n =? _); [|exact Hno]. apply direct_ok. exact Hi.
    - (* write *)
      destruct (ready t m && negb (hidden h m)) eqn:Er; [|exact Hno]. apply andb_true_iff in Er. destruct Er as [Er Hh].
      apply negb_true_iff in Hh. destruct (ready_at _ _ Er) as [Hp Hq].
      apply enter_ok; [exact Hi|]. intros g' es Ne Hb Io'. unfold hidden in Hh. destruct m as [on cc posts o lost]; unfold m_g in *; cbn [m_on m_count m_post m_o m_lost] in *.
      destruct Hb as [E|j Hp' Ej Ee E1 E2|h' off' cl' u' _ E G O1 O2 Ee E1 E2|_ E]; try discriminate; [congruence|destruct j; discriminate|].
      inversion E; subst. cbn [sevs fold_left sev option_map] in *.
      apply (write_ok on cc lost posts o s s2 t h' off' cl' u' PNone PNone); auto.
    - (* reset begins *)
      destruct (ready t m) eqn:Er; [|exact Hno]. destruct (ready_at _ _ Er) as [Hp Hq].
      destruct (leak_check su m); [apply wp_ret; exact Hi|]. apply wp_bind. unfold wp, put_post, ret.
      cbn. destruct m as [on cc posts o lost]; unfold m_g in *; cbn [m_on m_count m_post m_o m_lost] in *.
      pose proof (post_ok on on cc posts o s s2 lost t PNone PReset Hi Hq) as X. cbn [is_down is_pending pending] in X.
      pose proof (mi_count _ _ _ Hi) as Ec. cbn [m_count] in Ec.
      replace (if dbg then wrap (cc + 0 - 0 + 0) else cc) with cc in X.
      2:{ rewrite Ec. destruct dbg; [|reflexivity]. unfold wrap. rewrite Z.add_0_r, Z.sub_0_r, Z.add_0_r, Zmod_mod. reflexivity. }
      apply X; [|reflexivity]. intros p H. rewrite Hp in H. inversion H; subst. reflexivity.
    - (* a step inside *)
      destruct (nth_error (m_post m) t) as [q|] eqn:Hq; [|exact Hno].
      destruct (nth_error (g_thr (m_g m)) t) as [p|] eqn:Hp.
      + apply (step_inside t (Go t sp) m s s2 p q Hi Hp Hq). intros es g' E. cbn in E. unfold bind, get_g in E. rewrite Hp in E.
        revert E. apply go_shape; [exact Hp|]. apply (oinv_unlock (m_o m) s s2 t); [apply (mi_o _ _ _ Hi)|exact Hp].
      + exfalso. apply nth_error_None in Hp. rewrite <- (mi_len _ _ _ Hi) in Hp.
        assert (X : (t < length (m_post m))%nat) by (apply nth_error_Some; congruence). lia.
    - destruct (nth_error (m_post m) t) as [q|] eqn:Hq; [|exact Hno].
      destruct (nth_error (g_thr (m_g m)) t) as [p|] eqn:Hp.
      + apply (step_inside t (Stale t v) m s s2 p q Hi Hp Hq). intros es g' E. cbn in E. unfold bind, get_g in E. rewrite Hp in E.
        revert E. apply stale_shape_ok. exact Hp.
      + exfalso. apply nth_error_None in Hp. rewrite <- (mi_len _ _ _ Hi) in Hp.
        assert (X : (t < length (m_post m))%nat) by (apply nth_error_Some; congruence). lia.
    - (* a step outside *)
      destruct (nth_error (g_thr (m_g m)) t) as [p|] eqn:Hp; [|exact Hno]. destruct p; try exact Hno.
      destruct (nth_error (m_post m) t) as [q|] eqn:Hq; [|exact Hno]. destruct q; try exact Hno.
      + destruct (get h (g_tab (m_g m))) as [u|] eqn:G; [|exact Hno].
        apply enter_ok; [exact Hi|]. intros g' es Ne Hb Io'. destruct m as [on cc posts o lost]; unfold m_g in *; cbn [m_on m_count m_post m_o m_lost] in *.
        destruct Hb as [E|j Hp' Ej Ee E1 E2|h' off' cl' u' _ E G' O1 O2 Ee E1 E2|_ E]; try discriminate; [congruence|destruct j; discriminate|].
        inversion E; subst. rewrite G in G'. inversion G'; subst u'. cbn [sevs fold_left sev option_map] in *.
        apply (write_ok on cc lost posts o s s2 t h' 0 (repeat (Byte 0) (Z.to_nat (u_len u))) u (PZero h') (PUp h' true)); auto.
      + apply wp_bind. unfold wp, add_count. unfold bind, put_post, ret. cbn.
        destruct m as [on cc posts o lost]; unfold m_g in *; cbn [m_on m_count m_post m_o m_lost] in *.
        pose proof (post_ok on on cc posts o s s2 lost t (PUp h z) PNone Hi Hq) as X. cbn [is_down is_pending pending] in X.
        replace (cc + 0 - 0 + 1) with (cc + 1) in X by lia. apply X; [|reflexivity]. intros p H. rewrite Hp in H. inversion H; subst. reflexivity.
      + apply wp_bind. unfold wp, add_count. unfold bind, put_post, ret. cbn.
        destruct m as [on cc posts o lost]; unfold m_g in *; cbn [m_on m_count m_post m_o m_lost] in *.
        pose proof (post_ok on on cc posts o s s2 lost t PDown PNone Hi Hq) as X. cbn [is_down is_pending pending] in X.
        replace (cc + 0 - 1 + 0) with (cc + -1) in X by lia. apply X; [|reflexivity]. intros p H. rewrite Hp in H. inversion H; subst. reflexivity.
      + destruct (existsb is_pending (m_post m)) eqn:Hn; [exact Hno|]. apply wp_bind. unfold inside_step.
        pose proof (ours_ok su Hok (m_o m) s s2 (Start t (OpReset true)) (mi_o _ _ _ Hi)) as H. unfold wp, on_o, lift_g in *.
        unfold m_g in *.
        destruct (cstep su (Start t (OpReset true)) (o_g (m_o m))) as [es g'| | |] eqn:E; try contradiction. destruct H as [Io' _].
        pose proof (start_begun _ _ _ _ _ E) as Hb.
        destruct Hb as [Ee ->|j _ Ej|h off cl u _ Eo|_ _ Ee E1 E2]; try discriminate; [|destruct j; discriminate|].
        * subst es. cbn. destruct m as [on cc posts [tab2 g] lost]. exact Hi.
        * subst es. unfold bind, put_lost, put_post, ret. rewrite ours_inner, our_events_map, tevs_ours.
          cbn [m_on m_count m_post m_o m_lost sevs fold_left sev option_map] in *.
          destruct m as [on cc posts o lost]; cbn [m_on m_count m_post m_o m_lost] in *.
          pose proof (reset_ok on on cc lost posts o s s2 g' Hi Hn E1 E2 Io') as X.
          pose proof (post_ok on on cc posts _ _ s2 _ t PReset PNone X Hq) as X2. cbn [is_down is_pending pending] in X2.
          pose proof (mi_count _ _ _ Hi) as Ec. cbn [m_count] in Ec.
          replace (if dbg then wrap (cc + 0 - 0 + 0) else cc) with cc in X2.
          2:{ rewrite Ec. destruct dbg; [|reflexivity]. unfold wrap. rewrite Z.add_0_r, Z.sub_0_r, Z.add_0_r, Zmod_mod. reflexivity. }
          apply X2; [|reflexivity]. intros p H. cbn [o_g] in H. rewrite E1, Hp in H. inversion H; subst. reflexivity.
    - apply direct_ok. exact Hi.
    - destruct (all_ready m); [|exact Hno]. apply wp_bind. unfold wp, put_on. cbn.
      destruct m as [on cc posts o lost]. destruct Hi as [Io Il Ia Ip Is Ic]. split; auto.
    - destruct (all_ready m) eqn:Er; [|exact Hno]. destruct (leak_check su m); [apply wp_ret; exact Hi|].
      apply wp_bind. unfold inside_step.
      pose proof (ours_ok su Hok (m_o m) s s2 (Exclusive true) (mi_o _ _ _ Hi)) as H. unfold wp, on_o, lift_g in *.
      unfold m_g in *.
      destruct (cstep su (Exclusive true) (o_g (m_o m))) as [es g'| | |] eqn:E; try contradiction. destruct H as [Io' _].
      unfold cstep, bind, get_g in E. pose proof (all_ready_none _ Er) as Hn. unfold all_ready, m_g in Er. apply andb_true_iff in Er.
      destruct Er as [Er1 Er2]. rewrite Er1 in E. unfold on_aw, put_tab, ret in E.
      destruct (do_reset su true (g_aw (o_g (m_o m)))) as [[] aw| | |]; try discriminate. inversion E; subst es g'.
      unfold bind, put_lost, put_on, ret. rewrite ours_inner, our_events_map, tevs_ours.
      cbn [m_on m_count m_post m_o m_lost sevs fold_left sev option_map] in *.
      destruct m as [on cc posts o lost]; cbn [m_on m_count m_post m_o m_lost] in *.
      refine (reset_ok on false cc lost posts o s s2 (mkG (map (fun _ => None) (g_tab (o_g o))) (g_thr (o_g o)) (g_lock (o_g o)) aw) Hi Hn eq_refl eq_refl Io').
  Qed.

  Lemma mrun_ok sched : forall m s s2, minv m s s2 -> wp (mrun su sched) m (Post s s2).
  Proof.
    induction sched as [|c sched IH]; intros m s s2 Hi; cbn [mrun].
    - apply wp_ret. exact Hi.
    - apply wp_bind. eapply wp_mono; [apply (mstep_ok c m s s2 Hi)|].
      intros e m1 H1. apply wp_bind. eapply wp_mono; [apply (IH m1 _ _ H1)|].
      intros es m2 H2. apply wp_ret. replace (inner_events (e ++ es)) with (inner_events e ++ inner_events es).
      + rewrite our_events_app, sevs_app, tevs_app. exact H2.
      + clear. induction e as [|[x|t h z|] e IH]; cbn; congruence.
  Qed.

  Lemma mstart_inv n : minv (mstart su n) [] [].
  Proof.
    split; unfold m_g; cbn [mstart m_o m_post m_count m_lost].
    - apply (ostart_inv su Hok).
    - cbn. rewrite !repeat_length. reflexivity.
    - intros t p q H1 H2. cbn in H1. apply nth_error_In, repeat_spec in H1. apply nth_error_In, repeat_spec in H2. subst. reflexivity.
    - intros t q h H1 H2. apply nth_error_In, repeat_spec in H1. subst. discriminate.
    - intros h u G. destruct h; discriminate.
    - cbn [ostart cstart o_g g_tab]. change (nlive (@nil (option ublock))) with 0.
      assert (X : forall f, f PNone = false -> cnt f (repeat PNone n) = 0).
      { intros f Hf. apply cnt_none. induction n as [|k IH]; cbn; [reflexivity|]. rewrite Hf. exact IH. }
      rewrite !X by reflexivity. destruct dbg; reflexivity.
  Qed.

  Definition mreached (n : nat) (sched : list mchoice) (es : list mevent) (m : mst) : Prop :=
    mrun su sched (mstart su n) = ORet es m.
  Lemma mrun_total n sched : exists es m, mreached n sched es m /\
    minv m (sevs (our_events (inner_events es)) []) (tevs (inner_events es) []).
  Proof.
    pose proof (mrun_ok sched _ _ _ (mstart_inv n)) as H. apply wp_inv in H.
    destruct H as (es & m & E & H). exists es, m. auto.
  Qed.
  Lemma mrun_returns n sched : exists es m, mrun su sched (mstart su n) = ORet es m.
  Proof. destruct (mrun_total n sched) as (es & m & E & _). eauto. Qed.
  Lemma mreached_inv n sched es m : mreached n sched es m ->
    minv m (sevs (our_events (inner_events es)) []) (tevs (inner_events es) []).
  Proof.
    intros E. destruct (mrun_total n sched) as (es' & m' & E' & H).
    unfold mreached in *. rewrite E in E'. inversion E'; subst. exact H.
  Qed.
End Facts.
