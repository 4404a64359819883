(** How often threads that share a [SyncBlinkAlloc] ask for chunks (C95), on paper (C89). *)
From Verif Require Import Base BaseFacts Alloc AllocFacts Arena ArenaFacts ArenaInv BlinkAlloc History HistoryFacts Setup SetupFacts Concrete
  Conc ConcFacts ConcSteps ConcProps Paper PaperFacts ProxyPaper ProxyPaperFacts ConcPaper ConcPaperFacts ConcPaperDemo InitialFacts ConcInitial.

(** ** Lists *)

Lemma count_len (l : list nat) v : (count_occ Nat.eq_dec l v <= length l)%nat.
Proof. induction l as [|x l IH]; cbn; [lia|]. destruct (Nat.eq_dec x v); lia. Qed.

(** Each of the values [vs] occurs [N] times at most, and there are no others. *)
Lemma pigeon N vs : forall l, incl l vs -> (forall v, (count_occ Nat.eq_dec l v <= N)%nat) -> (length l <= N * length vs)%nat.
Proof.
  induction vs as [|v vs IH]; intros l Hi Hc.
  - destruct l as [|x l]; [cbn; lia|]. destruct (Hi x (or_introl eq_refl)).
  - set (rest := filter (fun x => if Nat.eq_dec x v then false else true) l).
    assert (H1 : length l = (count_occ Nat.eq_dec l v + length rest)%nat).
    { unfold rest. clear. induction l as [|x l IH]; [reflexivity|]. cbn. destruct (Nat.eq_dec x v); cbn; lia. }
    assert (H2 : incl rest vs).
    { intros x Hx. unfold rest in Hx. apply filter_In in Hx. destruct Hx as [Hx Hv]. destruct (Nat.eq_dec x v); [discriminate|].
      destruct (Hi x Hx) as [X|X]; [congruence|exact X]. }
    assert (H3 : forall y, (count_occ Nat.eq_dec rest y <= N)%nat).
    { intros y. apply Nat.le_trans with (count_occ Nat.eq_dec l y); [|apply Hc]. unfold rest. clear.
      induction l as [|x l IH]; [cbn; lia|]. cbn. destruct (Nat.eq_dec x v); cbn; destruct (Nat.eq_dec x y); lia. }
    specialize (IH rest H2 H3). specialize (Hc v). cbn [length]. lia.
Qed.

(** ** Chunks that ran out of room *)

(** How many bytes the underlying allocator gave. *)
Definition obtained (tr : list uevent) : Z :=
  fold_right (fun e n => match e with EvAlloc _ (Some b) => b_len b | _ => 0 end + n) 0 tr.

Definition cap (k : pchunk) : Z := p_end k - p_first k.
Definition used (ks : list pchunk) : Z := fold_right (fun k n => (p_free k - p_first k) + n) 0 ks.
(** For each chunk: [Some w] if some request did not fit, which needed [w] bytes. *)
Definition wastes (ws : list (option Z)) : Z := fold_right (fun w n => match w with Some w => w | None => 0 end + n) 0 ws.
Definition somes (ws : list (option Z)) : nat := length (filter (fun w => match w with Some _ => true | None => false end) ws).
(** The chunks that ran out of room. *)
Fixpoint spent (ks : list pchunk) (ws : list (option Z)) : Z :=
  match ks, ws with
  | k :: ks, Some _ :: ws => cap k + spent ks ws
  | _ :: ks, None :: ws => spent ks ws
  | _, _ => 0
  end.
(** A chunk is at least as large as all those before the one before it. *)
Fixpoint rising (ks : list pchunk) : Prop :=
  match ks with
  | [] => True
  | k :: older => match older with [] => 0 <= cap k | _ :: o => space o + 64 <= cap k end /\ rising older
  end.

Lemma rising_pos ks : rising ks -> 0 <= space ks.
Proof.
  assert (X : forall n ks, (length ks <= n)%nat -> rising ks -> 0 <= space ks).
  { clear. induction n as [|n IH]; intros [|k [|k' o]] Hn H; cbn [rising space fold_right length] in *; try lia; unfold cap in *; [lia|].
    destruct H as [H1 [H2 H3]]. pose proof (IH o ltac:(lia) H3). pose proof (IH (k' :: o) ltac:(cbn [length]; lia) (conj H2 H3)) as X.
    cbn [space fold_right] in X. lia. }
  intros H. apply (X (length ks)); [lia|exact H].
Qed.
Lemma spent_space ks : forall ws, rising ks -> spent ks ws <= space ks.
Proof.
  induction ks as [|k ks IH]; intros ws H; [destruct ws; cbn; lia|]. destruct H as [H1 H2].
  pose proof (rising_pos ks H2) as P. pose proof (rising_pos (k :: ks) (conj H1 H2)) as Q.
  assert (Hc : 0 <= cap k). { destruct ks as [|k' o]; [exact H1|]. destruct H2 as [_ H2]. pose proof (rising_pos o H2). lia. }
  destruct ws as [|[w|] ws]; cbn [spent]; [exact Q| |]; pose proof (IH ws H2) as X;
    change (space (k :: ks)) with (cap k + space ks); lia.
Qed.
Lemma spent_log : forall n ks ws, (length ks <= n)%nat -> length ws = length ks -> rising ks ->
  64 * 2 ^ Z.of_nat (somes ws / 2) <= spent ks ws + 64.
Proof.
  induction n as [|n IH]; intros ks ws Hn Hw H.
  - destruct ks; [|cbn in Hn; lia]. destruct ws; [|discriminate Hw]. cbn. lia.
  - destruct ks as [|k ks]; destruct ws as [|w ws]; try discriminate Hw; [cbn; lia|].
    cbn [length] in Hn, Hw. injection Hw as Hw. destruct H as [H1 H2].
    pose proof (IH ks ws ltac:(lia) Hw H2) as X. destruct w as [w|]; [|exact X].
    cbn [spent]. unfold somes in *. cbn [filter length].
    destruct ks as [|k' o].
    + destruct ws; [|discriminate Hw]. cbn. lia.
    + destruct ws as [|w' ws]; [discriminate Hw|]. injection Hw as Hw. destruct H2 as [H2 H3].
      cbn [length] in Hn. pose proof (IH o ws ltac:(lia) Hw H3) as Y. pose proof (spent_space o ws H3) as Z0.
      set (c := length (filter (fun w0 : option Z => match w0 with Some _ => true | None => false end) ws)) in *.
      assert (Hs : exists a, length (filter (fun w0 : option Z => match w0 with Some _ => true | None => false end) (w' :: ws)) = a /\ (a <= S c)%nat).
      { eexists. split; [reflexivity|]. cbn [filter]. fold c. destruct w'; cbn [length]; fold c; lia. }
      destruct Hs as (a & Ea & Ha). rewrite Ea in *.
      assert (Hp : 2 ^ Z.of_nat (S a / 2) <= 2 ^ Z.of_nat (a / 2) + 2 ^ Z.of_nat (c / 2)).
      { assert (Hac : (a / 2 <= S c / 2)%nat) by (apply Nat.div_le_mono; lia).
        destruct (Nat.Even_or_Odd a) as [[b ->]|[b ->]].
        - replace (S (2 * b) / 2)%nat with (2 * b / 2)%nat; [pose proof (Z.pow_pos_nonneg 2 (Z.of_nat (c / 2))); lia|].
          replace (S (2 * b)) with (1 + b * 2)%nat by lia. rewrite Nat.div_add by lia. rewrite Nat.mul_comm, Nat.div_mul by lia. reflexivity.
        - replace (S (2 * b + 1)) with ((b + 1) * 2)%nat by lia. rewrite Nat.div_mul by lia.
          replace (2 * b + 1)%nat with (1 + b * 2)%nat by lia. rewrite Nat.div_add by lia. change (1 / 2 + b)%nat with b.
          assert (Hb : (b <= c / 2)%nat) by (apply Nat.div_le_lower_bound; lia).
          replace (Z.of_nat (b + 1)) with (Z.of_nat b + 1) by lia. rewrite Z.pow_add_r by lia.
          pose proof (Z.pow_le_mono_r 2 (Z.of_nat b) (Z.of_nat (c / 2)) ltac:(lia) ltac:(lia)). lia. }
      lia.
Qed.
Lemma spent_used ks ws : Forall2 (fun k w => match w with Some w => p_end k <= p_free k + w | None => True end) ks ws ->
  Forall (fun k => p_first k <= p_free k) ks -> spent ks ws <= used ks + wastes ws.
Proof.
  intros H. induction H as [|k w ks ws Hk H IH]; intros F; [cbn; lia|]. pose proof (Forall_inv F) as F1. specialize (IH (Forall_inv_tail F)).
  unfold used, wastes in *. destruct w as [w|]; cbn [spent fold_right]; unfold cap; lia.
Qed.

Section Story.
  Variables (min smax amax : Z) (S : strategy).
  Hypothesis Hs : honest amax S.
  Hypothesis Hm : 0 <= min <= USIZE_MAX.
  Hypothesis Ha : amax <= USIZE_MAX.
  Notation stp := (cp_step min smax S).
  Notation rn := (cp_run min smax S).
  Notation d_sane := (d_sane smax).
  (** Chunks at the beginning, chunks and bytes that had been obtained before. *)
  Variables (b0 c0 : nat) (o0 : Z).

  Lemma chunk_size_more ks l n : req_ok smax l -> (forall k o, ks = k :: o -> 0 <= space o) -> chunk_size min ks l = Some n ->
    32 + match ks with [] => 0 | _ :: o => space o + 64 end <= n.
  Proof.
    intros Hl Hsp. destruct (req_ok_facts _ _ Hl) as (k & Hk & Ek & Hp & Hz & Hsum).
    unfold chunk_size.
    set (x := match ks with [] => Z.max min (l_size l) | _ :: older => Z.max min (space older) + Z.max (l_size l) 64 end).
    assert (Hx : match ks with [] => 0 | _ :: o => space o + 64 end <= x) by (unfold x; destruct ks; lia).
    assert (Hx0 : 0 <= x) by (unfold x; destruct ks as [|k0 o]; [lia|]; pose proof (Hsp _ _ eq_refl); lia).
    set (raw := 32 + (if 8 <? l_align l then l_align l else 0) + x).
    assert (Hr : 32 + x <= raw) by (unfold raw; destruct (8 <? l_align l) eqn:E8; lia).
    destruct (USIZE_MAX <? raw) eqn:E1; [discriminate|].
    set (s := if raw <? 2 ^ 14 then 2 ^ Z.log2_up raw
              else if USIZE_MAX <? raw + (2 ^ 14 - 1) then raw else least_multiple raw (2 ^ 14)).
    assert (Es : raw <= s).
    { unfold s. destruct (raw <? 2 ^ 14); [apply Z.log2_up_spec; lia|].
      destruct (USIZE_MAX <? raw + (2 ^ 14 - 1)); [lia|]. rewrite least_multiple_eq.
      destruct (round_up_spec raw (2 ^ 14) ltac:(lia)) as [B _]. lia. }
    destruct (USIZE_MAX <? s + 7); [discriminate|]. intros E. injection E as <-.
    rewrite least_multiple_eq. destruct (round_up_spec s 8 ltac:(lia)) as [B _]. lia.
  Qed.

  Lemma fresh_rises ks l tr r ks' tr' : req_ok smax l -> rising ks -> fresh min S ks l tr = (r, ks', tr') ->
    match r with
    | None => ks' = ks /\ (tr' = tr \/ exists n, tr' = EvAlloc (mkLayout n 8) None :: tr)
    | Some _ => exists k n b, ks' = k :: ks /\ tr' = EvAlloc (mkLayout n 8) (Some b) :: tr /\ rising (k :: ks) /\
        p_first k <= p_free k /\ p_free k - p_first k <= l_size l + (l_align l - 1) /\ p_end k <= USIZE_MAX /\ p_len k = b_len b
    end.
  Proof.
    intros Hl Hri E. destruct (req_ok_facts _ _ Hl) as (k & Hk & Ek & Hp & Hz & Hsum). unfold fresh in E.
    destruct (chunk_size min ks l) as [n|] eqn:En; [|injection E as <- <- <-; auto].
    assert (Hsp : forall k0 o, ks = k0 :: o -> 0 <= space o).
    { intros k0 o ->. destruct Hri as [_ Hri]. exact (rising_pos _ Hri). }
    pose proof (chunk_size_more ks l n Hl Hsp En) as Ln.
    destruct (st_alloc S tr (mkLayout n 8)) as [b|] eqn:Eb; injection E as <- <- <-; [|eauto].
    destruct (proj1 Hs _ _ _ Eb) as ((B1 & B2 & B3 & B4) & _ & _). cbn [l_size l_align] in *.
    destruct (round_up_spec (b_ptr b + 32) (l_align l) Hp) as [B _].
    do 3 eexists. split; [reflexivity|]. split; [reflexivity|]. rewrite least_multiple_eq. unfold p_first. cbn [p_free p_at].
    split; [|split; [lia|split; [lia|split; [unfold p_end; cbn [p_at p_len]; lia|reflexivity]]]].
    split; [|exact Hri]. unfold cap, p_end, p_first. cbn [p_at p_len]. destruct ks as [|k0 o]; lia.
  Qed.

  (** What calls in progress may still use up: for a block, and for running out of room. *)
  Definition dues2 (ds : list doing) : Z := fold_right (fun d n => (owes d + due d) + n) 0 ds.
  Lemma dues2_set t d d0 ds : nth_error ds t = Some d0 -> dues2 (set_nth t d ds) = dues2 ds - (owes d0 + due d0) + (owes d + due d).
  Proof.
    unfold dues2. revert t. induction ds as [|x ds IH]; intros [|t] H; cbn in *; try discriminate.
    - injection H as ->. lia.
    - rewrite (IH t H). lia.
  Qed.
  Lemma dues2_pos ds : Forall d_sane ds -> 0 <= dues2 ds.
  Proof.
    unfold dues2. induction 1 as [|d ds H _ IH]; cbn; [lia|]. pose proof (due_pos smax d H). pose proof (most_pos smax d H). lia.
  Qed.

  (** [N] threads.  [bs]: for every chunk, how many chunks there were when the thread that asked for it
      found no room; [pd]: the same for those that will ask; [fs]: the values other than 0 in [bs] and [pd];
      [ws]: which chunks ran out of room. *)
  Record story (N : nat) (B n : Z) (bs pd fs : list nat) (ws : list (option Z)) (q : cpaper) : Prop := mkStory {
    s_tab : tab_sane (cp_tab q);
    s_sane : Forall d_sane (cp_thr q);
    s_len : length (cp_thr q) = N;
    s_bs : (length bs + b0 = length (cp_chunks q))%nat;
    s_pd : length pd = fulls (cp_thr q);
    s_bs_lt : Forall (fun v => (v < length (cp_chunks q))%nat) bs;
    s_pd_le : Forall (fun v => (v <= length (cp_chunks q))%nat) pd;
    s_few : forall v, (count_occ Nat.eq_dec bs v + count_occ Nat.eq_dec pd v <= N)%nat;
    s_bs_in : incl bs (0%nat :: fs);
    s_pd_in : incl pd (0%nat :: fs);
    s_fs : length fs = somes ws;
    s_hd : match ws with Some _ :: _ => In (length (cp_chunks q)) fs | _ => True end;
    s_caps : Forall2 (fun k w => match w with Some w => p_end k <= p_free k + w | None => True end) (cp_chunks q) ws;
    s_used : Forall (fun k => p_first k <= p_free k) (cp_chunks q);
    s_end : Forall (fun k => p_end k <= USIZE_MAX) (cp_chunks q);
    s_rising : rising (cp_chunks q);
    s_budget : used (cp_chunks q) + wastes ws + dues2 (cp_thr q) + 2 * n <= B;
    s_given : length (filter given (cp_calls q)) = (c0 + length bs)%nat;
    s_obtained : obtained (cp_calls q) = o0 + space (cp_chunks q) + 32 * Z.of_nat (length (cp_chunks q))
  }.

  (** A thread goes on, having taken [x] bytes of the newest chunk. *)
  Lemma story_set N B n bs pd fs ws ks ks' tab tab' tr ds t d0 d n' x :
    story N B n' bs pd fs ws (mkCP ks tab tr ds) -> nth_error ds t = Some d0 -> tab_sane tab' -> d_sane d ->
    d_full d0 = false -> d_full d = false ->
    0 <= x -> match ks with k :: o => ks' = mkP (p_at k) (p_len k) (p_free k + x) :: o | [] => ks' = [] /\ x = 0 end ->
    x + owes d + due d + 2 * n <= owes d0 + due d0 + 2 * n' ->
    story N B n bs pd fs ws (mkCP ks' tab' tr (set_nth t d ds)).
  Proof.
    intros [E1 E2 E3 E4 E5 E6 E7 E8 E9 E10 E11 E12 E13 E14 E15 E16 E17 E18 E19] Et Ht Hd Hf0 Hf Hx Hk Hn.
    cbn [cp_tab cp_thr cp_chunks cp_calls] in *.
    assert (Hlen : length ks' = length ks) by (destruct ks; [destruct Hk as [-> _]|rewrite Hk]; reflexivity).
    pose proof (fulls_set t d d0 ds Et) as F. rewrite Hf, Hf0 in F.
    split; cbn [cp_tab cp_thr cp_chunks cp_calls]; try rewrite Hlen; auto.
    - apply sane_set; assumption.
    - rewrite set_len. exact E3.
    - lia.
    - destruct ks as [|k o]; [destruct Hk as [-> ->]; exact E13|]. rewrite Hk.
      inversion E13 as [|k1 w1 o1 ws1 C1 C2]; subst. constructor; [|exact C2]. destruct w1; [|exact I]. unfold p_end in *. cbn [p_at p_len p_free]. lia.
    - destruct ks as [|k o]; [destruct Hk as [-> ->]; exact E14|]. rewrite Hk.
      constructor; [|exact (Forall_inv_tail E14)]. pose proof (Forall_inv E14). unfold p_first in *. cbn [p_at p_free]. lia.
    - destruct ks as [|k o]; [destruct Hk as [-> ->]; exact E15|]. rewrite Hk. constructor; [exact (Forall_inv E15)|exact (Forall_inv_tail E15)].
    - destruct ks as [|k o]; [destruct Hk as [-> ->]; exact E16|]. rewrite Hk. exact E16.
    - rewrite (dues2_set _ _ _ _ Et). assert (X : used ks' = used ks + x).
      { destruct ks as [|k o]; [destruct Hk as [-> ->]; cbn; lia|]. rewrite Hk. unfold used, p_first. cbn [fold_right p_at p_free]. lia. }
      lia.
    - rewrite E19. f_equal. f_equal. destruct ks as [|k o]; [destruct Hk as [-> ->]; reflexivity|]. rewrite Hk. reflexivity.
  Qed.

  Definition told (N : nat) (B n : Z) (q : cpaper) : Prop := exists bs pd fs ws, story N B n bs pd fs ws q.

  Lemma step_told N B m q es q1 n : 0 <= n -> stp m q = Some (es, q1) -> forallb no_reset es = true ->
    told N B (most_called es + n) q -> told N B n q1.
  Proof.
    destruct q as [ks tab tr ds]. intros Hn0 E Hr (bs & pd & fs & ws & Hq).
    pose proof (step_called _ _ _ _ _ _ _ E) as Hc0.
    pose proof Hq as [Ht Hsn Hlen Hbs Hpd Hbl Hpl Hfew Hbi Hpi Hfs Hhd Hcaps Hused Hend Hri Hbud Hgiv Hobt].
    cbn [cp_chunks cp_thr cp_tab cp_calls] in *.
    assert (Hsame : forall t d0 d tab', nth_error ds t = Some d0 -> tab_sane tab' -> d_sane d -> d_full d0 = false -> d_full d = false ->
              owes d + due d <= owes d0 + due d0 + 2 * most_called es ->
              told N B n (mkCP ks tab' tr (set_nth t d ds))).
    { intros t d0 d tab' Et Ht' Hd Hf0 Hf H1. exists bs, pd, fs, ws.
      apply (story_set N B n bs pd fs ws ks ks tab tab' tr ds t d0 d _ 0 Hq Et); auto; [lia| |lia].
      destruct ks as [|[x y z] o]; [auto|]. cbn [p_at p_len p_free]. rewrite Z.add_0_r. reflexivity. }
    assert (Hsane : forall t d, nth_error ds t = Some d -> d_sane d).
    { intros t d Et. rewrite Forall_forall in Hsn. apply (Hsn _ (nth_error_In _ _ Et)). }
    assert (Htab : forall t o a r ks tr ds, op_sane smax o ->
       exists hh tt, snd (done_with t o a r (mkCP ks tab tr ds)) = mkCP ks tt tr (set_nth t (DDone hh a) ds) /\ tab_sane tt).
    { intros t o a r ks' tr' ds' Hso.
      assert (Hn : forall x, 0 <= l_size x -> tab_sane (tab ++ [Some (mkU (match r with Some b => b_ptr b | None => 0 end) (match r with Some b => b_len b | None => 0 end) x)])).
      { intros x Hx. apply Forall_app. split; [exact Ht|]. constructor; [exact Hx|constructor]. }
      unfold done_with. destruct o as [l z|h off cl|h l|h old new|h old new|keep], r as [b|]; cbn [cp_chunks cp_tab cp_calls cp_thr set_thr fst snd];
        eexists; eexists; (split; [reflexivity|]); auto; try (apply tab_set; [exact Ht|]; exact I).
      - apply Hn. destruct (req_ok_facts _ _ Hso) as (kk & _ & _ & Hp & Hsz & _). lia.
      - apply tab_set; [exact Ht|]. cbn. destruct (req_ok_facts _ _ (proj1 Hso)) as (kk & _ & _ & Hp & Hsz & _). lia. }
    assert (Hdone : forall t o d0 a r, nth_error ds t = Some d0 -> d_full d0 = false -> op_sane smax o -> es = [Lin t o r] ->
              told N B n (snd (done_with t o a r (mkCP ks tab tr ds)))).
    { intros t o d0 a r Et Hf0 Hso ->. pose proof (due_pos smax d0 (Hsane _ _ Et)) as Hp1. pose proof (most_pos smax d0 (Hsane _ _ Et)) as Hp2.
      destruct (Htab t o a r ks tr ds Hso) as (hh & tt & -> & Htt).
      apply (Hsame t d0); auto; try exact I; cbn [due owes most_called]; lia. }
    destruct m as [t o|t|t|t|t|t|t|t|keep]; cbn [cp_step cp_thr cp_chunks cp_tab cp_calls] in E.
    - destruct (nth_error ds t) as [[|o1|o1|o1 b1 a1|h1 a1]|] eqn:Et; try discriminate E.
      destruct o as [l z|h off cl|h l|h old new|h old new|keep]; try discriminate E.
      + destruct z; [discriminate E|]. destruct (req_okb smax l) eqn:El; [|discriminate E]. injection E as <- <-.
        apply (Hsame t DNone); auto; cbn [owes due most most_called]; lia.
      + destruct (get h tab) as [u|]; [|discriminate E]. destruct (_ && _); [|discriminate E]. injection E as <- <-.
        exists bs, pd, fs, ws. cbn [most_called most] in *. exact Hq.
      + destruct (get h tab) as [u|]; [|discriminate E]. destruct (_ && _); [|discriminate E]. injection E as <- <-.
        apply (Hsame t DNone); auto; try exact I; cbn [owes due most most_called]; lia.
      + destruct (get h tab) as [u|] eqn:Eu; [|discriminate E].
        destruct (negb _ && fitsb old u && req_okb smax new) eqn:El; [|discriminate E]. injection E as <- <-.
        apply andb_true_iff in El. destruct El as [El0 El]. apply andb_true_iff in El0. destruct El0 as [_ El0]. unfold fitsb in El0.
        pose proof (tab_at _ _ _ Ht Eu) as Hu0.
        apply (Hsame t DNone); auto; try (cbn [owes due most most_called]; lia). split; [exact El|lia].
      + destruct keep; [|discriminate E]. destruct (forallb d_away ds); [|discriminate E]. injection E as <- <-. discriminate Hr.
    - destruct (nth_error ds t) as [[|o|o1|o1 b1 a1|h1 a1]|] eqn:Et; try discriminate E.
      destruct (_ || _); [discriminate E|]. destruct (wants o) as [l|] eqn:Ew; [|discriminate E].
      destruct (room_in ks l) as [[a ks1]|] eqn:Er; [|discriminate E]. unfold bumped in E. injection E as <- <-.
      destruct ks as [|k older]; [discriminate Er|].
      unfold room_in in Er. destruct (_ && _) eqn:Eb in Er; [|discriminate Er]. injection Er as <- <-.
      assert (Hl : req_ok smax l /\ most o = l_size l + (l_align l - 1)).
      { pose proof (Hsane _ _ Et) as X. destruct o; try discriminate Ew; injection Ew as ->; cbn in X; tauto. }
      destruct Hl as [Hl Hmo]. destruct (req_ok_facts _ _ Hl) as (kk & _ & _ & Hp & Hsz & _).
      pose proof (round_up_spec (p_free k) (l_align l) Hp) as [Br _]. rewrite <- least_multiple_eq in Br.
      set (a := least_multiple (p_free k) (l_align l)) in *.
      assert (Hgo : forall d tab', tab_sane tab' -> d_sane d -> d_full d = false -> owes d = 0 -> due d = 0 ->
                told N B n (mkCP (mkP (p_at k) (p_len k) (a + l_size l) :: older) tab' tr (set_nth t d ds))).
      { intros d tab' H0 H1 H2 H3 H4. exists bs, pd, fs, ws.
        assert (H5 : 0 <= most_called (fst (granted t o false (mkBlock a (l_size l)) (set_chunks (mkP (p_at k) (p_len k) (a + l_size l) :: older) (mkCP (k :: older) tab tr ds))))) by exact Hc0.
        eapply (story_set N B n bs pd fs ws (k :: older) _ tab tab' tr ds t (DAsked o) d _ (a + l_size l - p_free k) Hq Et); auto; [lia|f_equal; f_equal; lia|].
        rewrite H3, H4. change (due (DAsked o)) with (most o). change (owes (DAsked o)) with (most o).
        cbn [most_called]. lia. }
      pose proof (Hsane _ _ Et) as Hso.
      destruct o; try discriminate Ew; cbn [granted done_with fst snd set_thr set_chunks cp_chunks cp_tab cp_calls cp_thr]; apply Hgo; auto; try exact I.
      injection Ew as ->. apply Forall_app. split; [exact Ht|]. constructor; [cbn; lia|constructor].
    - destruct (nth_error ds t) as [[|o|o1|o1 b1 a1|h1 a1]|] eqn:Et; try discriminate E.
      destruct o as [l z|h off cl|h l|h old new|h old new|keep]; try discriminate E.
      destruct (existsb alone ds); [discriminate E|]. destruct (get h tab) as [u|]; [|discriminate E].
      destruct ((l_align new <=? l_align old) && (l_size old <? l_size new)) eqn:Ea; [|discriminate E].
      destruct (room_at ks (u_ptr u) old new) as [ks1|] eqn:Er; [|discriminate E]. unfold bumped in E. injection E as <- <-.
      destruct ks as [|k older]; [discriminate Er|].
      unfold room_at in Er. destruct (_ && _) eqn:Eb in Er; [|discriminate Er]. injection Er as <-.
      destruct (Hsane _ _ Et) as [Hso Ho]. destruct (req_ok_facts _ _ Hso) as (kk & _ & _ & Hp & Hsz & _).
      cbn [done_with fst snd most_called set_chunks cp_chunks cp_tab cp_calls cp_thr] in *.
      exists bs, pd, fs, ws.
      eapply (story_set N B n bs pd fs ws (k :: older) _ tab _ tr ds t (DAsked (OpResize h old new)) _ _ (u_ptr u + l_size new - p_free k) Hq Et); auto;
        [apply tab_set; [exact Ht|cbn; lia]|exact I|lia|f_equal; f_equal; lia|]. cbn [owes due most]. lia.
    - destruct (nth_error ds t) as [[|o|o1|o1 b1 a1|h1 a1]|] eqn:Et; try discriminate E.
      destruct (existsb alone ds); [discriminate E|].
      destruct o as [l z|h off cl|h l|h old new|h old new|keep]; try discriminate E.
      + injection E as <- <-. apply (Hdone t (OpDealloc h l) _ false None Et); [reflexivity|exact I|reflexivity].
      + destruct (get h tab) as [u|]; [|discriminate E]. destruct (shrinks _); [|discriminate E]. injection E as <- <-.
        apply (Hdone t (OpResize h old new) _ false (Some (mkBlock (u_ptr u) (l_size old))) Et); [reflexivity|exact (Hsane _ _ Et)|reflexivity].
    - destruct (nth_error ds t) as [[|o|o1|o1 b1 a1|h1 a1]|] eqn:Et; try discriminate E.
      destruct (_ || _); [discriminate E|]. destruct (wants o) as [l|] eqn:Ew; [|discriminate E].
      destruct (room_in ks l) as [[a ks1]|] eqn:Er; [discriminate E|]. injection E as <- <-.
      assert (Hl : req_ok smax l /\ most o = l_size l + (l_align l - 1)).
      { pose proof (Hsane _ _ Et) as X. destruct o; try discriminate Ew; injection Ew as ->; cbn in X; tauto. }
      destruct Hl as [Hl Hmo]. destruct (req_ok_facts _ _ Hl) as (kk & _ & _ & Hp & Hsz & _).
      pose proof (fulls_set t (DFull o) (DAsked o) ds Et) as Hfl. cbn [d_full] in Hfl.
      pose proof (fulls_len (set_nth t (DFull o) ds)) as Hfl2. rewrite set_len in Hfl2.
      cbn [most_called] in Hbud.
      assert (Hbs0 : count_occ Nat.eq_dec bs (length ks) = 0%nat).
      { apply count_occ_not_In. intros X. rewrite Forall_forall in Hbl. specialize (Hbl _ X). lia. }
      (* the newest chunk counts as run out of room *)
      assert (Hgo : forall fs' ws', incl fs fs' -> In (length ks) (0%nat :: fs') -> length fs' = somes ws' ->
                match ws' with Some _ :: _ => In (length ks) fs' | _ => True end ->
                Forall2 (fun k w => match w with Some w => p_end k <= p_free k + w | None => True end) ks ws' ->
                wastes ws' <= wastes ws + most o ->
                told N B n (mkCP ks tab tr (set_nth t (DFull o) ds))).
      { intros fs' ws' G1 G2 G3 G4 G5 G6. exists bs, (length ks :: pd), fs', ws'.
        assert (G1' : incl (0%nat :: fs) (0%nat :: fs')).
        { intros y [Hy|Hy]; [left; exact Hy|right; exact (G1 y Hy)]. }
        split; cbn [cp_tab cp_thr cp_chunks cp_calls]; auto.
        - apply sane_set; [exact (Hsane _ _ Et)|exact Hsn].
        - rewrite set_len. exact Hlen.
        - cbn [length]. lia.
        - intros v. cbn [count_occ]. destruct (Nat.eq_dec (length ks) v) as [<-|Nv]; [|apply Hfew].
          pose proof (count_len pd (length ks)). lia.
        - intros y Hy. apply G1', Hbi, Hy.
        - intros y [<-|Hy]; [exact G2|apply G1', Hpi, Hy].
        - rewrite (dues2_set _ _ _ _ Et). cbn [owes due]. lia. }
      destruct ks as [|k older].
      + apply (Hgo fs ws); auto; [apply incl_refl|left; reflexivity|].
        pose proof (op_pos smax o (Hsane _ _ Et)). lia.
      + inversion Hcaps as [|k1 w1 o1 ws1 C1 C2]; subst k1 o1 ws.
        destruct w1 as [w|].
        * apply (Hgo fs (Some w :: ws1)); auto; [apply incl_refl|right; exact Hhd|].
          pose proof (op_pos smax o (Hsane _ _ Et)). lia.
        * apply (Hgo (length (k :: older) :: fs) (Some (most o) :: ws1)).
          -- apply incl_tl, incl_refl.
          -- right. left. reflexivity.
          -- unfold somes in *. cbn [filter length] in *. lia.
          -- left. reflexivity.
          -- constructor; [|exact C2].
             pose proof (round_up_spec (p_free k) (l_align l) Hp) as [Br _]. rewrite <- least_multiple_eq in Br.
             pose proof (Forall_inv Hend) as He. cbn beta in He.
             unfold room_in in Er. destruct (_ && _) eqn:Eb in Er; [discriminate Er|].
             apply andb_false_iff in Eb. destruct Eb as [Eb|Eb]; lia.
          -- unfold wastes. cbn [fold_right]. lia.
    - destruct (nth_error ds t) as [[|o|o|o1 b1 a1|h1 a1]|] eqn:Et; try discriminate E.
      destruct (existsb has_got ds); [discriminate E|]. destruct (wants o) as [l|] eqn:Ew; [|discriminate E].
      destruct (fresh min S ks l tr) as [[a ks1] tr1] eqn:Ef.
      assert (Hl : req_ok smax l /\ most o = l_size l + (l_align l - 1)).
      { pose proof (Hsane _ _ Et) as X. destruct o; try discriminate Ew; injection Ew as ->; cbn in X; tauto. }
      destruct Hl as [Hl Hmo]. destruct (req_ok_facts _ _ Hl) as (kk & _ & _ & Hp & Hsz & _).
      pose proof (fresh_rises ks l tr a ks1 tr1 Hl Hri Ef) as F.
      pose proof (Hsane _ _ Et) as Hso.
      assert (Hpd1 : exists v pd1, pd = v :: pd1 /\ forall d, d_full d = false -> length pd1 = fulls (set_nth t d ds)).
      { destruct pd as [|v pd1].
        - pose proof (fulls_set t DNone (DFull o) ds Et) as X. cbn [d_full length] in X, Hpd. lia.
        - exists v, pd1. split; [reflexivity|]. intros d Hd. pose proof (fulls_set t d (DFull o) ds Et) as X. rewrite Hd in X.
          cbn [d_full length] in X, Hpd. lia. }
      destruct Hpd1 as (v & pd1 & -> & Hpd1).
      destruct a as [a|].
      + destruct F as (k & m & b & -> & -> & F1 & F2 & F3 & F4 & F5).
        assert (Hgo : forall d tab', tab_sane tab' -> d_sane d -> d_full d = false -> owes d = 0 -> due d = 0 ->
                  told N B n (mkCP (k :: ks) tab' (EvAlloc (mkLayout m 8) (Some b) :: tr) (set_nth t d ds))).
        { intros d tab' H0 H1 H2 H3 H4. exists (v :: bs), pd1, fs, (None :: ws).
          split; cbn [cp_tab cp_thr cp_chunks cp_calls]; auto.
          - apply sane_set; assumption.
          - rewrite set_len. exact Hlen.
          - cbn [length]. lia.
          - constructor; [pose proof (Forall_inv Hpl); cbn [length] in *; lia|].
            eapply Forall_impl; [|exact Hbl]. cbn [length]. intros y Hy. lia.
          - pose proof (Forall_inv_tail Hpl) as X. eapply Forall_impl; [|exact X]. cbn [length]. intros y Hy. lia.
          - intros y. specialize (Hfew y). cbn [count_occ] in *. destruct (Nat.eq_dec v y); lia.
          - intros y [<-|Hy]; [apply Hpi; left; reflexivity|apply Hbi, Hy].
          - intros y Hy. apply Hpi. right. exact Hy.
          - rewrite (dues2_set _ _ _ _ Et). rewrite H3, H4. cbn [owes due].
            unfold used, wastes in *. cbn [fold_right]. lia.
          - cbn [filter given length]. lia.
          - unfold obtained, space, p_end, p_first in *. cbn [fold_right length]. lia. }
        destruct o; try discriminate Ew; cbn [granted done_with fst snd set_thr set_chunks cp_chunks cp_tab cp_calls cp_thr] in E; injection E as _ <-; apply Hgo; auto; try exact I.
        injection Ew as ->. apply Forall_app. split; [exact Ht|]. constructor; [cbn; lia|constructor].
      + destruct F as (-> & F).
        destruct (Htab t o true None ks tr1 ds Hso) as (hh & tt & Eh & Htt).
        assert (Eq : q1 = snd (done_with t o true None (mkCP ks tab tr1 ds))) by (injection E as E1 E2; symmetry; exact E2).
        rewrite Eh in Eq. subst q1.
        exists bs, pd1, fs, ws. split; cbn [cp_tab cp_thr cp_chunks cp_calls]; auto.
        * apply sane_set; [exact I|exact Hsn].
        * rewrite set_len. exact Hlen.
        * exact (Forall_inv_tail Hpl).
        * intros y. specialize (Hfew y). cbn [count_occ] in *. destruct (Nat.eq_dec v y); lia.
        * intros y Hy. apply Hpi. right. exact Hy.
        * rewrite (dues2_set _ _ _ _ Et). cbn [owes due]. pose proof (op_pos smax o Hso). lia.
        * destruct F as [-> | [m ->]]; exact Hgiv.
        * destruct F as [-> | [m ->]]; exact Hobt.
    - destruct (nth_error ds t) as [[|o|o1|o1 b1 a1|h1 a1]|] eqn:Et; try discriminate E. injection E as <- <-.
      apply (Hdone t o1 _ a1 (Some b1) Et); [reflexivity|exact (Hsane _ _ Et)|reflexivity].
    - destruct (nth_error ds t) as [[|o|o1|o1 b1 a1|h1 a1]|] eqn:Et; try discriminate E. injection E as <- <-.
      apply (Hsame t (DDone h1 a1)); auto; try exact I; cbn [owes due most most_called]; lia.
    - destruct (forallb d_idle ds); [|discriminate E]. injection E as <- <-. discriminate Hr.
  Qed.

  Lemma run_told N B ms : forall q es q1 n, 0 <= n -> rn ms q = Some (es, q1) -> forallb no_reset es = true ->
    told N B (most_called es + n) q -> told N B n q1.
  Proof.
    induction ms as [|m ms IH]; intros q es q1 n Hn E Hr H; cbn [cp_run] in E.
    - injection E as <- <-. exact H.
    - destruct (stp m q) as [[es1 q2]|] eqn:E1; [|discriminate E]. destruct (rn ms q2) as [[es2 q3]|] eqn:E2; [|discriminate E].
      injection E as <- <-. rewrite forallb_app in Hr. apply andb_true_iff in Hr. destruct Hr as [Hr1 Hr2].
      rewrite most_called_app, <- Z.add_assoc in H.
      pose proof (run_called _ _ _ _ _ _ _ E2) as Hn2.
      apply (IH q2 es2 q3 n Hn E2 Hr2). apply (step_told N B m q es1 q2 (most_called es2 + n) ltac:(lia) E1 Hr1 H).
  Qed.

  (** At the beginning: nothing is used, and there is a chunk or not. *)
  Lemma clean_told N n q : tab_sane (cp_tab q) -> cp_thr q = repeat DNone N ->
    match cp_chunks q with
    | [] => b0 = 0%nat
    | [k] => b0 = 1%nat /\ p_free k = p_first k /\ p_first k <= p_end k <= USIZE_MAX
    | _ => False
    end ->
    length (filter given (cp_calls q)) = c0 ->
    obtained (cp_calls q) = o0 + space (cp_chunks q) + 32 * Z.of_nat (length (cp_chunks q)) ->
    told N (2 * n) n q.
  Proof.
    intros Ht Hd Hk Hg Ho. exists [], [], [], (map (fun _ => None) (cp_chunks q)).
    assert (X : fulls (cp_thr q) = 0%nat) by (rewrite Hd; unfold fulls; clear; induction N as [|N IH]; cbn; [reflexivity|exact IH]).
    assert (Y : dues2 (cp_thr q) = 0) by (rewrite Hd; clear; induction N as [|N IH]; cbn; [reflexivity|exact IH]).
    assert (W : forall ks : list pchunk, wastes (map (fun _ => None) ks) = 0).
    { induction ks as [|k ks IH]; cbn; [reflexivity|exact IH]. }
    assert (U : used (cp_chunks q) = 0 /\ length (cp_chunks q) = b0 /\ Forall (fun k => p_first k <= p_free k) (cp_chunks q) /\
                Forall (fun k => p_end k <= USIZE_MAX) (cp_chunks q) /\ rising (cp_chunks q)).
    { destruct (cp_chunks q) as [|k [|k' ks]]; [subst b0; repeat split; constructor| |destruct Hk].
      destruct Hk as (-> & Hk1 & Hk2). unfold used. cbn [fold_right length rising]. unfold cap.
      split; [lia|]. split; [reflexivity|]. split; [constructor; [lia|constructor]|]. split; [constructor; [lia|constructor]|]. split; [lia|exact I]. }
    destruct U as (U1 & U2 & U3 & U4 & U5).
    split; auto; try (intros ? []).
    - rewrite Hd. apply Forall_forall. intros d Hi. apply repeat_spec in Hi. subst. exact I.
    - rewrite Hd. apply repeat_length.
    - cbn. lia.
    - unfold somes. clear. induction (cp_chunks q) as [|k ks IH]; cbn; [reflexivity|exact IH].
    - destruct (cp_chunks q); exact I.
    - clear. induction (cp_chunks q) as [|k ks IH]; cbn; constructor; [exact I|exact IH].
    - rewrite W. lia.
    - cbn [length]. lia.
  Qed.

  Lemma told_few N n q : told N (2 * n) 0 q -> exists m,
    (length (filter given (cp_calls q)) <= c0 + N * (1 + m))%nat /\ 32 * 2 ^ Z.of_nat (m / 2) <= n + 32.
  Proof.
    intros (bs & pd & fs & ws & He). rewrite (s_given _ _ _ _ _ _ _ _ He). exists (somes ws). split.
    - rewrite <- (s_fs _ _ _ _ _ _ _ _ He).
      pose proof (pigeon N (0%nat :: fs) bs (s_bs_in _ _ _ _ _ _ _ _ He)) as X. cbn [length] in X.
      enough (length bs <= N * Datatypes.S (length fs))%nat by lia. apply X.
      intros v. pose proof (s_few _ _ _ _ _ _ _ _ He v). lia.
    - pose proof (s_caps _ _ _ _ _ _ _ _ He) as Hcp.
      assert (Hw : length ws = length (cp_chunks q)). { clear - Hcp. induction Hcp; cbn; congruence. }
      pose proof (spent_log _ _ ws (Nat.le_refl _) Hw (s_rising _ _ _ _ _ _ _ _ He)) as X.
      pose proof (spent_used _ _ Hcp (s_used _ _ _ _ _ _ _ _ He)) as Y.
      pose proof (s_budget _ _ _ _ _ _ _ _ He) as Z0.
      pose proof (dues2_pos _ (s_sane _ _ _ _ _ _ _ _ He)) as W. lia.
  Qed.
  Lemma told_large N B n q : told N B n q -> 64 * 2 ^ Z.of_nat (length (cp_chunks q) / 2) <= obtained (cp_calls q) - o0 + 64.
  Proof.
    intros (bs & pd & fs & ws & He). rewrite (s_obtained _ _ _ _ _ _ _ _ He).
    pose proof (s_rising _ _ _ _ _ _ _ _ He) as Hri.
    assert (Hl : length (map (fun _ => Some 0) (cp_chunks q)) = length (cp_chunks q)) by apply map_length.
    pose proof (spent_log _ _ _ (Nat.le_refl _) Hl Hri) as X.
    pose proof (spent_space (cp_chunks q) (map (fun _ => Some 0) (cp_chunks q)) Hri) as Y.
    assert (Hs1 : somes (map (fun _ => Some 0) (cp_chunks q)) = length (cp_chunks q)).
    { clear. unfold somes. induction (cp_chunks q) as [|k ks IH]; cbn; [reflexivity|]. f_equal. exact IH. }
    rewrite Hs1 in X. lia.
  Qed.
  Lemma told_given N B n q : told N B n q -> (length (filter given (cp_calls q)) + b0 = c0 + length (cp_chunks q))%nat.
  Proof. intros (bs & pd & fs & ws & He). rewrite (s_given _ _ _ _ _ _ _ _ He). pose proof (s_bs _ _ _ _ _ _ _ _ He). lia. Qed.
End Story.

(** The number of threads stays. *)
Lemma done_len t o a r q : length (cp_thr (snd (done_with t o a r q))) = length (cp_thr q).
Proof. destruct o, r; cbn; apply set_len. Qed.
Lemma granted_len t o a b q : length (cp_thr (snd (granted t o a b q))) = length (cp_thr q).
Proof. destruct o; try apply done_len. cbn. apply set_len. Qed.
Lemma step_len min smax S m q es q1 : cp_step min smax S m q = Some (es, q1) -> length (cp_thr q1) = length (cp_thr q).
Proof.
  assert (Hd : forall t o a r q0, Some (done_with t o a r q0) = Some (es, q1) -> cp_thr q0 = cp_thr q -> length (cp_thr q1) = length (cp_thr q)).
  { intros t o a r q0 E E0. pose proof (done_len t o a r q0) as X. assert (Y : done_with t o a r q0 = (es, q1)) by congruence. rewrite Y in X. cbn in X. congruence. }
  assert (Hg : forall t o a b q0, Some (granted t o a b q0) = Some (es, q1) -> cp_thr q0 = cp_thr q -> length (cp_thr q1) = length (cp_thr q)).
  { intros t o a b q0 E E0. pose proof (granted_len t o a b q0) as X. assert (Y : granted t o a b q0 = (es, q1)) by congruence. rewrite Y in X. cbn in X. congruence. }
  intros E. destruct m as [t o|t|t|t|t|t|t|t|keep]; cbn [cp_step] in E;
    try (destruct (nth_error (cp_thr q) t) as [[|o1|o1|o1 b1 a1|h1 a1]|]; try discriminate E).
  - destruct o as [l z|h off cl|h l|h old new|h old new|keep]; try discriminate E.
    + destruct z; [discriminate E|]. destruct (req_okb smax l); [|discriminate E]. injection E as _ <-. apply set_len.
    + destruct (get h (cp_tab q)); [|discriminate E]. destruct (_ && _); [|discriminate E]. injection E as _ <-. reflexivity.
    + destruct (get h (cp_tab q)); [|discriminate E]. destruct (_ && _); [|discriminate E]. injection E as _ <-. apply set_len.
    + destruct (get h (cp_tab q)); [|discriminate E]. destruct (_ && _); [|discriminate E]. injection E as _ <-. apply set_len.
    + destruct keep; [|discriminate E]. destruct (forallb _ _); [|discriminate E]. injection E as _ <-. reflexivity.
  - destruct (_ || _); [discriminate E|]. destruct (wants o1) as [l|]; [|discriminate E]. destruct (room_in _ _) as [[a ks]|]; [|discriminate E].
    unfold bumped in E. assert (q1 = snd (granted t o1 false (mkBlock a (l_size l)) (set_chunks ks q))) as -> by congruence. rewrite granted_len. reflexivity.
  - destruct o1; try discriminate E. destruct (existsb _ _); [discriminate E|]. destruct (get _ _) as [u|]; [|discriminate E].
    destruct (_ && _); [|discriminate E]. destruct (room_at _ _ _ _) as [ks|]; [|discriminate E].
    unfold bumped in E. injection E as _ <-. cbn. apply set_len.
  - destruct (existsb _ _); [discriminate E|]. destruct o1; try discriminate E; [exact (Hd _ _ _ _ _ E eq_refl)|].
    destruct (get _ _) as [u|]; [|discriminate E]. destruct (shrinks _); [|discriminate E]. exact (Hd _ _ _ _ _ E eq_refl).
  - destruct (_ || _); [discriminate E|]. destruct (wants o1) as [l|]; [|discriminate E]. destruct (room_in _ _); [discriminate E|].
    injection E as _ <-. apply set_len.
  - destruct (existsb _ _); [discriminate E|]. destruct (wants o1) as [l|]; [|discriminate E].
    destruct (fresh _ _ _ _ _) as [[[a|] ks] tr]; [exact (Hg _ _ _ _ _ E eq_refl)|exact (Hd _ _ _ _ _ E eq_refl)].
  - exact (Hd _ _ _ _ _ E eq_refl).
  - injection E as _ <-. apply set_len.
  - destruct (forallb _ _); [|discriminate E]. destruct keep; injection E as _ <-; reflexivity.
Qed.
Lemma run_len min smax S ms : forall q es q1, cp_run min smax S ms q = Some (es, q1) -> length (cp_thr q1) = length (cp_thr q).
Proof.
  induction ms as [|m ms IH]; intros q es q1 E; cbn [cp_run] in E; [injection E as _ <-; reflexivity|].
  destruct (cp_step min smax S m q) as [[es1 q2]|] eqn:E1; [|discriminate E]. destruct (cp_run min smax S ms q2) as [[es2 q3]|] eqn:E2; [|discriminate E].
  injection E as _ <-. rewrite (IH _ _ _ E2). exact (step_len _ _ _ _ _ _ _ E1).
Qed.

(** On the model of the code.  No call is under way, and the allocator has no chunk, or one
    chunk of which nothing is used: the cursor is behind the header and there is no older chunk
    (src/arena/mod.rs 175-180). *)
Definition clean (g : gst) : Prop :=
  Forall (fun p => p = Idle) (g_thr g) /\
  match ar_root (fst (g_aw g)) with
  | None => True
  | Some r => load (bw_mem (snd (g_aw g))) (r + CURSOR) 8 = Some (r + HDR) /\ load (bw_mem (snd (g_aw g))) (r + PREV) 8 = Some 0
  end.
Lemma chunks_since su n sched1 es1 g1 sched2 es2 g2 : setup_ok su -> crun su sched1 (cstart su n) = ORet es1 g1 -> clean g1 ->
  crun su sched2 g1 = ORet es2 g2 -> forallb no_reset es2 = true ->
  exists m, (length (filter given (bw_trace (snd (g_aw g2)))) <= length (filter given (bw_trace (snd (g_aw g1)))) + n * (1 + m))%nat /\
    32 * 2 ^ Z.of_nat (m / 2) <= most_called es2 + 32.
Proof.
  intros Hok E1 (Hid & Hroot) E2 Hn.
  pose proof (creached_inv su Hok n sched1 es1 g1 E1) as Hi.
  destruct (threads_exact su Hok n sched1 es1 g1 E1) as (ms1 & q1 & Em1 & _ & Hs1).
  assert (Hp : paced (cp_chunks q1) (g_thr g1)).
  { unfold paced. rewrite Forall_forall in Hid |- *. intros p Hin. rewrite (Hid p Hin). exact I. }
  destruct (run_exact su Hok sched2 g1 _ q1 es2 g2 Hi Hs1 Hp E2) as (ms2 & q2 & Em & _ & Hs2).
  destruct Hs1 as (S1 & S2 & S3 & S4). destruct Hs2 as (_ & _ & T3 & _).
  destruct (bounds su Hok) as (B1 & B2 & B3 & B4).
  assert (Hthr : cp_thr q1 = repeat DNone n).
  { assert (Hlen : length (cp_thr q1) = n) by (rewrite (run_len _ _ _ _ _ _ _ Em1); apply repeat_length).
    rewrite <- S4 in *. rewrite map_length in Hlen. rewrite <- Hlen. clear - Hid. induction Hid as [|p thr -> _ IH]; cbn; [reflexivity|]. f_equal. exact IH. }
  assert (Hq : told (su_smax su) (length (cp_chunks q1)) (length (filter given (cp_calls q1)))
                 (obtained (cp_calls q1) - (space (cp_chunks q1) + 32 * Z.of_nat (length (cp_chunks q1)))) n (2 * most_called es2) (most_called es2 + 0) q1).
  { rewrite Z.add_0_r. destruct Hi as (cs & R & _). apply clean_told.
    - pose proof (ar_ok _ _ _ _ _ _ _ _ R) as Hu. rewrite S2 in Hu. apply Forall_app in Hu. destruct Hu as [Hu _].
      unfold tab_sane. rewrite Forall_forall in Hu |- *. intros [u|] Hin; [|exact I].
      assert (X : In u (live (cp_tab q1))) by (apply live_in; apply In_nth_error in Hin; destruct Hin as [h Hin]; exists h; unfold get; rewrite Hin; reflexivity).
      destruct (Hu u X) as (_ & _ & Y). exact Y.
    - exact Hthr.
    - pose proof (ar_head _ _ _ _ _ _ _ _ R) as Hh.
      destruct (ar_root (fst (g_aw g1))) as [r|] eqn:Er.
      + destruct Hroot as [Hc Hpv]. destruct (cp_chunks q1) as [|k ks]; [contradiction S1|]. cbn [headed] in S1.
        destruct S1 as (K1 & (K2 & K3) & older & K4 & K5). change (r + 16) with (r + PREV) in K4.
        assert (older = 0) by congruence. subst older. cbn in K5. destruct ks; [|contradiction K5].
        assert (X : exists e0, root_is cs r e0).
        { destruct cs as [|c1 cs1]; [discriminate Hh|]. cbn in Hh. injection Hh as Hh. exists (c_end c1). split; [exact (eq_sym Hh)|reflexivity]. }
        destruct (header_of su Hok cs _ _ _ r R X) as (c1 & cs1 & _ & _ & L1 & L2 & _ & L4 & L3).
        unfold CURSOR in Hc, L1. rewrite Z.add_0_r in Hc, L1. assert (p_free k = r + HDR) by congruence.
        assert (p_end k = c_end c1) by (unfold END in *; congruence).
        assert (c_cur c1 = r + HDR) by congruence. unfold p_first, HDR in *. rewrite <- K1. split; [reflexivity|]. lia.
      + destruct (cp_chunks q1) as [|k ks]; [reflexivity|contradiction S1].
    - reflexivity.
    - lia. }
  pose proof (run_told _ _ (su_amax su) (su_strat su) B1 B3 B2 _ _ _ n _ ms2 q1 es2 q2 0 ltac:(lia) Em Hn Hq) as He.
  destruct (told_few _ _ _ _ _ _ _ He) as (m & M1 & M2). exists m. rewrite T3, S3. split; [exact M1|exact M2].
Qed.
Lemma cstart_clean su n : clean (cstart su n).
Proof.
  split; [|exact I]. apply Forall_forall. intros p Hp. cbn in Hp. apply repeat_spec in Hp. exact Hp.
Qed.
Lemma chunks_few su n sched es g : setup_ok su -> crun su sched (cstart su n) = ORet es g -> forallb no_reset es = true ->
  exists m, (length (filter given (bw_trace (snd (g_aw g)))) <= n * (1 + m))%nat /\
    32 * 2 ^ Z.of_nat (m / 2) <= most_called es + 32.
Proof. intros Hok E Hr. exact (chunks_since su n [] [] (cstart su n) sched es g Hok eq_refl (cstart_clean su n) E Hr). Qed.
Lemma chunks_large su n sched es g : setup_ok su -> crun su sched (cstart su n) = ORet es g -> forallb no_reset es = true ->
  64 * 2 ^ Z.of_nat (length (filter given (bw_trace (snd (g_aw g)))) / 2) <= obtained (bw_trace (snd (g_aw g))) + 64.
Proof.
  intros Hok E Hr. destruct (threads_exact su Hok n sched es g E) as (ms & q & Em & _ & Hq).
  destruct (bounds su Hok) as (B1 & B2 & B3 & B4).
  assert (He : told (su_smax su) 0 0 0 n (2 * most_called es) 0 q).
  { apply (run_told _ _ (su_amax su) (su_strat su) B1 B3 B2 _ _ _ n _ ms (cp0 n) es q 0 ltac:(lia) Em Hr). rewrite Z.add_0_r.
    apply clean_told; try reflexivity. constructor. }
  destruct Hq as (_ & _ & Hc & _). rewrite Hc. pose proof (told_large _ _ _ _ _ _ _ _ He) as X. pose proof (told_given _ _ _ _ _ _ _ _ He) as Y.
  replace (length (filter given (cp_calls q))) with (length (cp_chunks q)) by lia. lia.
Qed.
(** A reset through [&mut] leaves it so. *)
Lemma reset_clean su n sched es g keep es' g' : setup_ok su -> crun su sched (cstart su n) = ORet es g ->
  crun su [Exclusive keep] g = ORet es' g' -> es' <> [] -> clean g'.
Proof.
  intros Hok E E' Hne. pose proof (creached_inv su Hok n sched es g E) as Hi.
  destruct (threads_exact su Hok n sched es g E) as (ms0 & q & _ & _ & Hs0).
  cbn [crun] in E'. unfold bind in E'. destruct (cstep su (Exclusive keep) g) as [es1 g1| | |] eqn:Ec; try discriminate E'.
  cbn in E'. injection E' as <- <-. rewrite app_nil_r in Hne.
  assert (Hid : Forall (fun p => p = Idle) (g_thr g)).
  { unfold cstep, get_g, bind in Ec. destruct (forallb is_idle (g_thr g)) eqn:Ei; [|cbn in Ec; injection Ec as <- _; contradiction Hne; reflexivity].
    rewrite forallb_forall in Ei. apply Forall_forall. intros p Hp. specialize (Ei p Hp). destruct p; try discriminate Ei. reflexivity. }
  assert (Hp : paced (cp_chunks q) (g_thr g)).
  { unfold paced. rewrite Forall_forall in Hid |- *. intros p Hin. rewrite (Hid p Hin). exact I. }
  pose proof (step_exact su Hok g _ (Exclusive keep) q Hi Hs0 Hp) as H. unfold wp in H. rewrite Ec in H.
  destruct H as (ms & q1 & Em & Hf & Hl & Hs1 & _).
  destruct ms as [|m [|m' ms]]; [injection Em as <- _; contradiction Hne; reflexivity| |cbn in Hl; lia].
  apply Forall_inv in Hf. cbn in Hf. subst m. cbn [cp_run cp_step] in Em.
  destruct (forallb d_idle (cp_thr q)); [|discriminate Em].
  assert (Hq1 : q1 = wiped keep q) by congruence. subst q1. destruct Hs0 as (_ & _ & _ & T). destruct Hs1 as (R1 & _ & _ & R4).
  split.
  - assert (X : Forall (fun d => d = DNone) (map doing_of (g_thr g1))).
    { rewrite R4. replace (cp_thr (wiped keep q)) with (cp_thr q) by (destruct keep; reflexivity). rewrite <- T.
      rewrite Forall_forall in Hid |- *. intros d Hd. apply in_map_iff in Hd. destruct Hd as (p & <- & Hin). rewrite (Hid p Hin). reflexivity. }
    rewrite Forall_forall in X |- *. intros p Hin. specialize (X _ (in_map doing_of _ _ Hin)).
    destruct p as [|j|j a|j a b|j a|j a b|j a|j a b c|a [b|] c|j|j]; cbn in X; try discriminate X. reflexivity.
  - destruct (ar_root (fst (g_aw g1))) as [r|]; [|exact I].
    destruct keep; [|contradiction R1]. cbn [wiped cp_chunks] in R1. destruct (cp_chunks q) as [|k ks]; [contradiction R1|].
    cbn [newest headed] in R1. destruct R1 as (K1 & (K2 & K3) & older & K4 & K5). cbn [p_at p_free] in *.
    split.
    + unfold CURSOR. rewrite Z.add_0_r. unfold p_first, HDR in *. congruence.
    + unfold PREV. rewrite K4. destruct (older =? 0) eqn:Eo; [f_equal; lia|contradiction K5].
Qed.
