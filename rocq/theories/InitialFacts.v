(** The first chunk: proofs for C94, on paper (Paper.v, C77). *)
From Verif Require Import Base BaseFacts Alloc AllocFacts Arena ArenaFacts BlinkAlloc History HistoryFacts
  Setup SetupFacts SetupOps Paper PaperFacts Initial.

Lemma need_of l : 0 <= l_size l -> 0 < l_align l -> Z.max 0 (l_size l + (l_align l - 1)) = l_size l + (l_align l - 1).
Proof. lia. Qed.

Section Initial.
  Variables (min smax amax : Z) (S : strategy).
  Hypothesis Hs : honest amax S.
  Hypothesis Hm : 0 <= min <= USIZE_MAX.
  Hypothesis Ha : amax <= USIZE_MAX.

  Notation pstep := (paper_step min smax S).
  Notation prun := (paper_run min smax S).

  (** With [used] bytes of the configured size used up there is at most one
      chunk, and it has room for the rest. *)
  Definition opening (used : Z) (ks : list pchunk) (tr : list uevent) : Prop :=
    match ks with
    | [] => Forall refused tr
    | [k] => p_free k + (min - used) <= p_end k /\ p_end k <= USIZE_MAX /\ Forall refused (tl tr)
    | _ => False
    end.

  Definition sized (t : list (option ublock)) : Prop :=
    forall h u, get h t = Some u -> 0 <= l_size (u_layout u).

  Lemma chunk_size_least ks l n : req_ok smax l -> chunk_size min ks l = Some n ->
    32 + (if 8 <? l_align l then l_align l else 0) + Z.max min (l_size l) <= n.
  Proof.
    intros Hl. destruct (req_ok_facts _ _ Hl) as (k & Hk & Ek & Hp & Hz & Hsum).
    unfold chunk_size.
    set (x := match ks with [] => Z.max min (l_size l) | _ :: older => Z.max min (space older) + Z.max (l_size l) 64 end).
    assert (Hx : Z.max min (l_size l) <= x) by (unfold x; destruct ks; lia).
    set (raw := 32 + (if 8 <? l_align l then l_align l else 0) + x).
    assert (Hr : 32 <= raw) by (unfold raw; destruct (8 <? l_align l); lia).
    destruct (USIZE_MAX <? raw) eqn:E1; [discriminate|].
    set (s := if raw <? 2 ^ 14 then 2 ^ Z.log2_up raw
              else if USIZE_MAX <? raw + (2 ^ 14 - 1) then raw else least_multiple raw (2 ^ 14)).
    assert (Es : raw <= s).
    { unfold s. destruct (raw <? 2 ^ 14); [apply Z.log2_up_spec; lia|].
      destruct (USIZE_MAX <? raw + (2 ^ 14 - 1)); [lia|]. rewrite least_multiple_eq.
      destruct (round_up_spec raw (2 ^ 14) ltac:(lia)) as [B _]. lia. }
    destruct (USIZE_MAX <? s + 7); [discriminate|]. intros E. injection E as <-.
    rewrite least_multiple_eq. destruct (round_up_spec s 8 ltac:(lia)) as [B _]. unfold raw in *. lia.
  Qed.

  (** A new chunk has room for the configured size, minus what its first block needs. *)
  Lemma fresh_room ks l tr r ks' tr' : req_ok smax l -> fresh min S ks l tr = (r, ks', tr') ->
    match r with
    | None => ks' = ks /\ (tr' = tr \/ exists n, tr' = EvAlloc (mkLayout n 8) None :: tr)
    | Some _ => exists k n b, ks' = k :: ks /\ tr' = EvAlloc (mkLayout n 8) (Some b) :: tr /\
        p_free k + (min - (l_size l + (l_align l - 1))) <= p_end k /\ p_end k <= USIZE_MAX
    end.
  Proof.
    intros Hl E. destruct (req_ok_facts _ _ Hl) as (k & Hk & Ek & Hp & Hz & Hsum). unfold fresh in E.
    destruct (chunk_size min ks l) as [n|] eqn:En; [|injection E as <- <- <-; auto].
    pose proof (chunk_size_least ks l n Hl En) as Ln.
    destruct (st_alloc S tr (mkLayout n 8)) as [b|] eqn:Eb; injection E as <- <- <-; [|eauto].
    destruct (proj1 Hs _ _ _ Eb) as ((B1 & B2 & B3 & B4) & _ & _). cbn [l_size l_align] in *.
    do 3 eexists. split; [reflexivity|]. split; [reflexivity|]. cbn [p_free]. rewrite least_multiple_eq.
    assert (Pad : round_up (b_ptr b + 32) (l_align l) <= b_ptr b + 32 + (if 8 <? l_align l then l_align l - 1 else 0)).
    { destruct (round_up_spec (b_ptr b + 32) (l_align l) Hp) as [B _].
      destruct (Z.ltb_spec 8 (l_align l)) as [G|G]; [lia|].
      assert (Dv : (b_ptr b + 32) mod l_align l = 0).
      { assert (l_align l = 1 \/ l_align l = 2 \/ l_align l = 4 \/ l_align l = 8) as D.
        { rewrite Ek in *. assert (k < 4) by (apply (Z.pow_lt_mono_r_iff 2); [lia|lia|change (2 ^ 4) with 16; lia]).
          assert (k = 0 \/ k = 1 \/ k = 2 \/ k = 3) as [-> | [-> | [-> | ->]]] by lia; cbn; lia. }
        apply Z.mod_divide in B2; [|lia]. destruct B2 as [q Hq]. rewrite Hq.
        destruct D as [-> | [-> | [-> | ->]]].
        - apply Z.mod_1_r.
        - replace (q * 8 + 32) with ((q * 4 + 16) * 2) by lia. apply Z.mod_mul. lia.
        - replace (q * 8 + 32) with ((q * 2 + 8) * 4) by lia. apply Z.mod_mul. lia.
        - replace (q * 8 + 32) with ((q + 4) * 8) by lia. apply Z.mod_mul. lia. }
      unfold round_up. apply Z.mod_divide in Dv; [|lia]. destruct Dv as [q Hq]. rewrite Hq.
      rewrite Z.div_add_l by lia. rewrite Z.div_small by lia. lia. }
    unfold p_end. cbn [p_at p_len]. destruct (8 <? l_align l); lia.
  Qed.

  Lemma take_opening used ks l tr r ks' tr' :
    smax <= USIZE_MAX -> 0 <= used -> opening used ks tr -> req_ok smax l ->
    used + (l_size l + (l_align l - 1)) <= min ->
    take min S ks l tr = (r, ks', tr') ->
    opening (used + (l_size l + (l_align l - 1))) ks' tr' /\
    (ks <> [] -> r <> None /\ tr' = tr /\ ks' <> []).
  Proof.
    intros Hx Hu O Hl Hn E. destruct (req_ok_facts _ _ Hl) as (k & Hk & Ek & Hp & Hz & Hsum).
    unfold take in E. destruct ks as [|c [|c2 ks]]; [| |destruct O].
    - split; [|intros X; contradiction X; reflexivity]. pose proof (fresh_room [] l tr r ks' tr' Hl E) as F.
      destruct r as [a|].
      + destruct F as (c & n & b & -> & -> & F1 & F2). cbn [opening tl]. repeat split; [lia|exact F2|exact O].
      + destruct F as (-> & [-> | [n ->]]); [exact O|]. constructor; [eexists; reflexivity|exact O].
    - cbn [opening] in O. destruct O as (O1 & O2 & O3).
      destruct (round_up_spec (p_free c) (l_align l) Hp) as [B _]. rewrite least_multiple_eq in E.
      replace (p_free c + (l_size l + (l_align l - 1)) <=? USIZE_MAX) with true in E by lia.
      replace (round_up (p_free c) (l_align l) + l_size l <=? p_end c) with true in E by lia.
      cbn [andb] in E. injection E as <- <- <-. split.
      + cbn [opening p_free p_end p_at p_len]. unfold p_end in *. cbn [p_at p_len]. repeat split; [lia|lia|exact O3].
      + intros _. repeat split; discriminate.
  Qed.

  Lemma moves_opening used ks p old l tr r ks' tr' :
    smax <= USIZE_MAX -> 0 <= used -> opening used ks tr -> req_ok smax l -> 0 <= l_size old ->
    used + (l_size l + (l_align l - 1)) <= min ->
    moves min S ks p old l tr = (r, ks', tr') ->
    opening (used + (l_size l + (l_align l - 1))) ks' tr' /\
    (ks <> [] -> r <> None /\ tr' = tr /\ ks' <> []).
  Proof.
    intros Hx Hu O Hl Ho Hn E. destruct (req_ok_facts _ _ Hl) as (k & Hk & Ek & Hp & Hz & Hsum).
    assert (T : forall r ks' tr',
      (let '(r0, k1, t1) := take min S ks l tr in
       (option_map (fun a => mkBlock a (l_size l)) r0, k1, t1)) = (r, ks', tr') ->
      opening (used + (l_size l + (l_align l - 1))) ks' tr' /\
      (ks <> [] -> r <> None /\ tr' = tr /\ ks' <> [])).
    { clear E. intros r0 k0 t0 E. destruct (take min S ks l tr) as [[r1 k1] t1] eqn:Et. injection E as <- <- <-.
      destruct (take_opening used ks l tr r1 k1 t1 Hx Hu O Hl Hn Et) as [O' G]. split; [exact O'|].
      intros X. destruct (G X) as (G1 & G2 & G3). repeat split; auto. destruct r1; [discriminate|contradiction]. }
    unfold moves in E. cbv zeta in E.
    destruct (l_align l <=? l_align old); [|exact (T _ _ _ E)].
    destruct (l_size l <=? l_size old).
    - injection E as <- <- <-. split; [|intros X; repeat split; [discriminate|exact X]].
      destruct ks as [|c [|c2 ks]]; [exact O| |destruct O]. cbn [opening] in *. repeat split; try apply O. lia.
    - destruct ks as [|c [|c2 ks]]; [exact (T _ _ _ E)| |destruct O].
      destruct ((p_free c =? p + l_size old) && (p + l_size l <=? p_end c)) eqn:C; [|exact (T _ _ _ E)].
      apply andb_true_iff in C. destruct C as [C1 C2]. injection E as <- <- <-.
      cbn [opening] in O. destruct O as (O1 & O2 & O3). split.
      + cbn [opening p_free p_end p_at p_len]. unfold p_end in *. cbn [p_at p_len]. repeat split; [lia|lia|exact O3].
      + intros _. repeat split; discriminate.
  Qed.

  Lemma sized_set h u t : sized t -> 0 <= l_size (u_layout u) -> sized (set_nth h (Some u) t).
  Proof.
    intros Ht Hu h' v G. destruct (Nat.eq_dec h' h) as [->|D].
    - unfold get in G. destruct (nth_error (set_nth h (Some u) t) h) as [o|] eqn:E; [|discriminate G].
      destruct o as [w|]; [|discriminate G]. injection G as ->.
      assert (X : v = u); [|subst; exact Hu].
      clear Ht. revert t E. induction h as [|h IH]; intros [|y t] E; cbn in E; try discriminate E.
      + injection E as ->. reflexivity.
      + exact (IH t E).
    - apply (Ht h' v). unfold get in *. assert (E : nth_error (set_nth h (Some u) t) h' = nth_error t h').
      { clear Ht G. revert h h' D. induction t as [|y t IH]; intros [|h] [|h'] D; cbn; auto; try congruence. }
      rewrite E in G. exact G.
  Qed.

  Lemma sized_drop h t : sized t -> sized (set_nth h None t).
  Proof.
    intros Ht h' v G. destruct (Nat.eq_dec h' h) as [->|D].
    - exfalso. unfold get in G. destruct (nth_error (set_nth h None t) h) as [o|] eqn:E; [|discriminate G].
      destruct o as [w|]; [|discriminate G].
      clear Ht. revert t E. induction h as [|h IH]; intros [|y t] E; cbn in E; try discriminate E. exact (IH t E).
    - apply (Ht h' v). unfold get in *. assert (E : nth_error (set_nth h (@None ublock) t) h' = nth_error t h').
      { clear Ht G. revert h h' D. induction t as [|y t IH]; intros [|h] [|h'] D; cbn; auto; try congruence. }
      rewrite E in G. exact G.
  Qed.

  Lemma sized_add u t : sized t -> 0 <= l_size (u_layout u) -> sized (t ++ [Some u]).
  Proof.
    intros Ht Hu h v G. unfold get in *. destruct (nth_error (t ++ [Some u]) h) as [o|] eqn:E; [|discriminate G].
    destruct o as [w|]; [|discriminate G]. injection G as ->. apply nth_error_In in E. apply in_app_or in E.
    destruct E as [E|[E|[]]].
    - apply In_nth_error in E. destruct E as [j Ej]. apply (Ht j). unfold get. rewrite Ej. reflexivity.
    - injection E as ->. exact Hu.
  Qed.

  (** [o] is a legal request on paper. *)
  Definition demand (t : list (option ublock)) (o : op) : bool :=
    match o with
    | OpAlloc l _ => req_okb smax l
    | OpResize h old l => match get h t with Some u => fitsb old u && req_okb smax l | None => false end
    | OpGrowZeroed h old l =>
        match get h t with Some u => fitsb old u && req_okb smax l && (l_size old <=? l_size l) | None => false end
    | _ => false
    end.

  Lemma need_nonneg o : 0 <= need o.
  Proof. destruct o; cbn [need]; lia. Qed.

  Lemma opening_more used used' ks tr : opening used ks tr -> used <= used' -> opening used' ks tr.
  Proof.
    intros O L. destruct ks as [|c [|c2 ks]]; [exact O| |destruct O]. cbn [opening] in *. repeat split; try apply O. lia.
  Qed.

  Lemma step_opening used o p r p' :
    smax <= USIZE_MAX -> 0 <= used -> opening used (p_chunks p) (p_calls p) -> sized (p_tab p) ->
    is_reset o = false -> used + need o <= min -> pstep o p = (r, p') ->
    (opening (used + need o) (p_chunks p') (p_calls p') /\ sized (p_tab p')) /\
    (p_chunks p <> [] -> p_calls p' = p_calls p /\ (demand (p_tab p) o = true -> r <> None)).
  Proof.
    intros Hx Hu O Hz Ho Hn E.
    assert (Same : need o = need o -> (opening (used + need o) (p_chunks p) (p_calls p) /\ sized (p_tab p))).
    { intros _. split; [apply (opening_more used); [exact O|pose proof (need_nonneg o); lia]|exact Hz]. }
    specialize (Same eq_refl).
    destruct o as [l z|h off bs|h l|h old l|h old l|keep]; cbn [paper_step] in E; cbn [demand].
    - destruct (req_okb smax l) eqn:Hl.
      2: { injection E as <- <-. split; [exact Same|]. intros _. split; [reflexivity|discriminate]. }
      destruct (req_ok_facts _ _ Hl) as (k & Hk & Ek & Hp & Hzl & Hsum).
      cbn [need] in *. rewrite (need_of l Hzl Hp) in *.
      destruct (take min S (p_chunks p) l (p_calls p)) as [[r1 k1] t1] eqn:Et.
      destruct (take_opening used _ l _ _ _ _ Hx Hu O Hl Hn Et) as [O' G].
      destruct r1 as [a|]; injection E as <- <-; cbn [p_chunks p_calls p_tab].
      + split; [split; [exact O'|apply sized_add; assumption]|]. intros X. destruct (G X) as (_ & G2 & _).
        split; [exact G2|]. discriminate.
      + split; [split; [exact O'|exact Hz]|]. intros X. destruct (G X) as (G1 & _ & _). contradiction G1; reflexivity.
    - injection E as <- <-. split; [exact Same|]. intros _. split; [reflexivity|discriminate].
    - destruct (get h (p_tab p)) as [u|] eqn:G.
      2: { injection E as <- <-. split; [exact Same|]. intros _. split; [reflexivity|discriminate]. }
      destruct (fitsb l u); injection E as <- <-; cbn [p_chunks p_calls p_tab].
      + split; [split; [apply Same|apply sized_drop; exact Hz]|]. intros _. split; [reflexivity|discriminate].
      + split; [exact Same|]. intros _. split; [reflexivity|discriminate].
    - destruct (get h (p_tab p)) as [u|] eqn:Gh.
      2: { injection E as <- <-. split; [exact Same|]. intros _. split; [reflexivity|discriminate]. }
      destruct (fitsb old u && req_okb smax l) eqn:C.
      2: { injection E as <- <-. split; [exact Same|]. intros _. split; [reflexivity|discriminate]. }
      apply andb_true_iff in C. destruct C as [Hf Hl]. apply fitsb_spec in Hf. destruct Hf as [_ Hf].
      pose proof (Hz h u Gh) as Hzu.
      destruct (req_ok_facts _ _ Hl) as (k & Hk & Ek & Hp & Hzl & Hsum).
      cbn [need] in *. rewrite (need_of l Hzl Hp) in *.
      destruct (moves min S (p_chunks p) (u_ptr u) old l (p_calls p)) as [[r1 k1] t1] eqn:Et.
      destruct (moves_opening used _ _ old l _ _ _ _ Hx Hu O Hl ltac:(lia) Hn Et) as [O' G].
      destruct r1 as [b|]; injection E as <- <-; cbn [p_chunks p_calls p_tab].
      + split; [split; [exact O'|apply sized_set; assumption]|]. intros X. destruct (G X) as (_ & G2 & _).
        split; [exact G2|]. discriminate.
      + split; [split; [exact O'|exact Hz]|]. intros X. destruct (G X) as (G1 & _ & _). contradiction G1; reflexivity.
    - destruct (get h (p_tab p)) as [u|] eqn:Gh.
      2: { injection E as <- <-. split; [exact Same|]. intros _. split; [reflexivity|discriminate]. }
      destruct (fitsb old u && req_okb smax l && (l_size old <=? l_size l)) eqn:C.
      2: { injection E as <- <-. split; [exact Same|]. intros _. split; [reflexivity|discriminate]. }
      apply andb_true_iff in C. destruct C as [C _]. apply andb_true_iff in C. destruct C as [_ Hl].
      destruct (req_ok_facts _ _ Hl) as (k & Hk & Ek & Hp & Hzl & Hsum).
      cbn [need] in *. rewrite (need_of l Hzl Hp) in *.
      destruct (take min S (p_chunks p) l (p_calls p)) as [[r1 k1] t1] eqn:Et.
      destruct (take_opening used _ l _ _ _ _ Hx Hu O Hl Hn Et) as [O' G].
      destruct r1 as [a|]; injection E as <- <-; cbn [p_chunks p_calls p_tab].
      + split; [split; [exact O'|apply sized_set; assumption]|]. intros X. destruct (G X) as (_ & G2 & _).
        split; [exact G2|]. discriminate.
      + split; [split; [exact O'|exact Hz]|]. intros X. destruct (G X) as (G1 & _ & _). contradiction G1; reflexivity.
    - discriminate Ho.
  Qed.

  Lemma total_nonneg ops : 0 <= total_need ops.
  Proof.
    induction ops as [|o ops IH]; cbn; [lia|]. fold (total_need ops). pose proof (need_nonneg o). lia.
  Qed.

  Lemma run_opening ops : forall used p rs p',
    smax <= USIZE_MAX -> 0 <= used -> opening used (p_chunks p) (p_calls p) -> sized (p_tab p) ->
    existsb is_reset ops = false -> used + total_need ops <= min -> prun ops p = (rs, p') ->
    opening (used + total_need ops) (p_chunks p') (p_calls p') /\ sized (p_tab p').
  Proof.
    induction ops as [|o ops IH]; intros used p rs p' Hx Hu O Hz Hr Hn E; cbn [paper_run] in E.
    - injection E as <- <-. cbn. rewrite Z.add_0_r. auto.
    - cbn [existsb] in Hr. apply orb_false_iff in Hr. destruct Hr as [Hr1 Hr2].
      change (total_need (o :: ops)) with (need o + total_need ops) in *.
      destruct (pstep o p) as [r p1] eqn:E1. destruct (prun ops p1) as [rs1 p2] eqn:E2. injection E as <- <-.
      pose proof (need_nonneg o). pose proof (total_nonneg ops).
      destruct (step_opening used o p r p1 Hx Hu O Hz Hr1 ltac:(lia) E1) as [[O1 Hz1] _].
      replace (used + (need o + total_need ops)) with (used + need o + total_need ops) by lia.
      apply (IH (used + need o) p1 rs1 p2 Hx ltac:(lia) O1 Hz1 Hr2 ltac:(lia) E2).
  Qed.
End Initial.

(** ** On the model of the code *)
Section Code.
  Variable su : setup.
  Hypothesis Hok : setup_ok su.

  Notation prun := (paper_run (su_min su) (su_smax su) (su_strat su)).

  Lemma bounds : honest (su_amax su) (su_strat su) /\ su_amax su <= USIZE_MAX /\
    0 <= su_min su <= USIZE_MAX /\ su_smax su <= USIZE_MAX.
  Proof. destruct Hok as (H1 & H2 & _ & H3 & _ & H4 & _). split; [exact H1|lia]. Qed.

  Lemma on_sheet ops st : reached su ops st -> exists cs rs,
    srep su cs st /\ prun ops paper0 = (rs, sheet cs st).
  Proof.
    intros [rs E].
    assert (HS0 : srep su [] (start su)).
    { destruct (start_inv su Hok) as [(cs & R & Hj & Hm) _]. cbn in R, Hj, Hm.
      destruct cs as [|c cs]; [|discriminate Hj]. split; [exact R|]. split; [exact Hj|exact Hm]. }
    destruct (run_exact su Hok ops _ _ _ _ HS0 E) as (cs & HS & P). exists cs, rs. split; [exact HS|exact P].
  Qed.

  Lemma sheet_opening ops st cs rs : existsb is_reset ops = false -> total_need ops <= su_min su ->
    prun ops paper0 = (rs, sheet cs st) ->
    opening (su_min su) (total_need ops) (bumps cs) (calls st) /\ sized (c_tab st).
  Proof.
    intros Hr Hn P. destruct bounds as (B1 & B2 & B3 & B4).
    apply (run_opening (su_min su) (su_smax su) (su_amax su) (su_strat su) B1 B3 B2 ops 0 paper0 rs (sheet cs st) B4); try exact P; try exact Hr; try lia.
    - cbn. constructor.
    - intros h u G. cbn in G. destruct h; discriminate G.
  Qed.

  Lemma one_chunk ops st : existsb is_reset ops = false -> total_need ops <= su_min su -> reached su ops st ->
    (length (held st) <= 1)%nat /\ Forall refused (tl (calls st)).
  Proof.
    intros Hr Hn R. destruct (on_sheet ops st R) as (cs & rs & HS & P).
    destruct (sheet_opening ops st cs rs Hr Hn P) as [O _]. destruct HS as (_ & Hh & _).
    destruct cs as [|c [|c2 cs]]; cbn [bumps map opening] in O; [| |destruct O].
    - split; [rewrite <- Hh; cbn; lia|]. destruct (calls st); [constructor|]. inversion O; subst. assumption.
    - split; [rewrite <- Hh; cbn; lia|apply O].
  Qed.

  Lemma from_first ops st o l : existsb is_reset ops = false -> total_need (ops ++ [o]) <= su_min su ->
    reached su ops st -> held st <> [] -> requests su st o l ->
    exists b st', do_step su o st = ORet (Some b) st' /\ calls st' = calls st.
  Proof.
    intros Hr Hn R Hh Hq. destruct bounds as (B1 & B2 & B3 & B4).
    assert (Et : total_need (ops ++ [o]) = total_need ops + need o).
    { clear. induction ops as [|x ops IH]; cbn; [lia|]. unfold total_need in *. rewrite IH. lia. }
    rewrite Et in Hn. destruct (on_sheet ops st R) as (cs & rs & HS & P).
    pose proof (need_nonneg o).
    destruct (sheet_opening ops st cs rs Hr ltac:(lia) P) as [O Hz].
    destruct (reached_step_total su Hok ops st o R) as (r & st2 & E2 & _).
    destruct (step_exact su Hok o st cs r st2 HS E2) as (cs' & HS' & P').
    assert (Hi : is_reset o = false) by (destruct o; [reflexivity..|destruct Hq]).
    assert (D : demand (su_smax su) (c_tab st) o = true).
    { destruct o as [l' z|h off bs|h l'|h old new|h old new|keep]; cbn [requests] in Hq; try contradiction; destruct Hq as [<- Hq]; cbn [demand].
      - exact Hq.
      - destruct Hq as (Hl & u & G & Hf). rewrite G. apply andb_true_iff. split; [apply fitsb_spec; exact Hf|exact Hl].
      - destruct Hq as (Hl & Hle & u & G & Hf). rewrite G. apply andb_true_iff. split; [|lia].
        apply andb_true_iff. split; [apply fitsb_spec; exact Hf|exact Hl]. }
    destruct (step_opening (su_min su) (su_smax su) (su_amax su) (su_strat su) B1 B3 B2 (total_need ops) o (sheet cs st) r (sheet cs' st2)
                B4 (total_nonneg ops) O Hz Hi ltac:(lia) P') as [_ G].
    destruct G as [G1 G2].
    { cbn [sheet p_chunks]. destruct HS as (_ & Hc & _). destruct cs as [|c cs]; [|discriminate].
      rewrite <- Hc in Hh. contradiction Hh; reflexivity. }
    specialize (G2 D). destruct r as [b|]; [|contradiction G2; reflexivity].
    exists b, st2. split; [exact E2|exact G1].
  Qed.

  Lemma first_asks l z : req_ok (su_smax su) l -> exists r st,
    do_run su [OpAlloc l z] (start su) = ORet [r] st /\
    let n := 32 + (if 8 <? l_align l then l_align l else 0) + Z.max (su_min su) (l_size l) in
    (n < 2 ^ 14 -> exists k ans, 0 <= k /\ n <= 2 ^ k < 2 * n /\ calls st = [EvAlloc (mkLayout (2 ^ k) 8) ans]) /\
    (2 ^ 14 <= n <= USIZE_MAX - (2 ^ 14 + 7) -> exists k ans, n <= k * 2 ^ 14 < n + 2 ^ 14 /\
       calls st = [EvAlloc (mkLayout (k * 2 ^ 14) 8) ans]).
  Proof.
    intros Hl. pose proof (exactly_paper su Hok [OpAlloc l z]) as H. destruct bounds as (B1 & B2 & B3 & B4).
    destruct (req_ok_facts _ _ Hl) as (k & Hk & Ek & Hp & Hzl & Hsum).
    destruct (prun [OpAlloc l z] paper0) as [rs p] eqn:E. destruct H as (st & E1 & _ & Ec & _).
    cbn [paper_run paper_step] in E. assert (Hl' := Hl). unfold req_ok in Hl'. rewrite Hl' in E.
    cbn [paper0 p_chunks p_tab p_calls take] in E. unfold fresh in E.
    assert (Hrs : exists r, rs = [r]).
    { destruct (chunk_size (su_min su) [] l) as [m|]; [destruct (st_alloc (su_strat su) [] (mkLayout m 8))|];
        injection E as <- _; eexists; reflexivity. }
    destruct Hrs as [r ->]. exists r, st. split; [exact E1|]. rewrite Ec. cbv zeta. clear E1 Ec.
    set (n := 32 + (if 8 <? l_align l then l_align l else 0) + Z.max (su_min su) (l_size l)) in *.
    assert (Hn32 : 32 <= n) by (unfold n; destruct (8 <? l_align l); lia).
    assert (X : forall m, chunk_size (su_min su) [] l = Some m -> exists ans, p_calls p = [EvAlloc (mkLayout m 8) ans]).
    { intros m Em. rewrite Em in E. destruct (st_alloc (su_strat su) [] (mkLayout m 8)) as [b|]; injection E as _ <-;
        eexists; reflexivity. }
    split; intros Hn.
    - exists (Z.log2_up n). destruct (Z.log2_up_spec n ltac:(lia)) as [L1 L2].
      assert (K1 : 1 <= Z.log2_up n) by (apply (Z.log2_up_le_mono 2 n); lia).
      assert (K2 : Z.log2_up n <= 14) by (apply (Z.log2_up_le_mono n (2 ^ 14)); lia).
      assert (K5 : 5 <= Z.log2_up n) by (apply (Z.log2_up_le_mono (2 ^ 5) n); lia).
      assert (Em : chunk_size (su_min su) [] l = Some (2 ^ Z.log2_up n)).
      { unfold chunk_size. fold n. replace (USIZE_MAX <? n) with false by (unfold USIZE_MAX; lia).
        replace (n <? 2 ^ 14) with true by lia.
        assert (2 ^ Z.log2_up n <= 2 ^ 14) by (apply Z.pow_le_mono_r; lia).
        replace (USIZE_MAX <? 2 ^ Z.log2_up n + 7) with false by (unfold USIZE_MAX; lia).
        f_equal. unfold least_multiple.
        replace (2 ^ Z.log2_up n) with (2 ^ (Z.log2_up n - 3) * 8).
        - rewrite Z.div_add_l by lia. change ((8 - 1) / 8) with 0. lia.
        - change 8 with (2 ^ 3). rewrite <- Z.pow_add_r by lia. f_equal. lia. }
      destruct (X _ Em) as (ans & Ea). exists ans. split; [lia|]. split; [|exact Ea]. split; [exact L2|].
      assert (2 ^ Z.log2_up n = 2 * 2 ^ Z.pred (Z.log2_up n)).
      { rewrite <- Z.pow_succ_r by lia. f_equal. lia. }
      lia.
    - exists ((n + (2 ^ 14 - 1)) / 2 ^ 14).
      assert (Hd : n <= (n + (2 ^ 14 - 1)) / 2 ^ 14 * 2 ^ 14 < n + 2 ^ 14).
      { pose proof (Z.div_mod (n + (2 ^ 14 - 1)) (2 ^ 14) ltac:(lia)).
        pose proof (Z.mod_pos_bound (n + (2 ^ 14 - 1)) (2 ^ 14) ltac:(lia)). lia. }
      assert (Em : chunk_size (su_min su) [] l = Some ((n + (2 ^ 14 - 1)) / 2 ^ 14 * 2 ^ 14)).
      { unfold chunk_size. fold n. replace (USIZE_MAX <? n) with false by lia.
        replace (n <? 2 ^ 14) with false by lia.
        replace (USIZE_MAX <? n + (2 ^ 14 - 1)) with false by lia.
        change (least_multiple n (2 ^ 14)) with ((n + (2 ^ 14 - 1)) / 2 ^ 14 * 2 ^ 14).
        set (q := (n + (2 ^ 14 - 1)) / 2 ^ 14) in *.
        replace (USIZE_MAX <? q * 2 ^ 14 + 7) with false by lia. f_equal. unfold least_multiple.
        replace (q * 2 ^ 14) with (q * 2 ^ 11 * 8) by lia. rewrite Z.div_add_l by lia.
        change ((8 - 1) / 8) with 0. lia. }
      destruct (X _ Em) as (ans & Ea). exists ans. split; [exact Hd|exact Ea].
  Qed.

  (** Never exactly the configured size. *)
  Lemma first_twice j l z : su_min su = 2 ^ j -> 5 <= j <= 13 -> req_ok (su_smax su) l ->
    l_size l <= 2 ^ j -> l_align l <= 8 ->
    exists r st ans, do_run su [OpAlloc l z] (start su) = ORet [r] st /\
      calls st = [EvAlloc (mkLayout (2 * 2 ^ j) 8) ans].
  Proof.
    intros Hm Hj Hl Hz Ha. destruct (first_asks l z Hl) as (r & st & E & H). cbv zeta in H.
    replace (8 <? l_align l) with false in H by lia.
    replace (32 + 0 + Z.max (su_min su) (l_size l)) with (2 ^ j + 32) in H by lia.
    assert (L : 2 ^ j <= 2 ^ 13) by (apply Z.pow_le_mono_r; lia).
    assert (L5 : 2 ^ 5 <= 2 ^ j) by (apply Z.pow_le_mono_r; lia).
    destruct H as [H _]. destruct H as (k & ans & Hk & [K1 K2] & Ec); [lia|].
    exists r, st, ans. split; [exact E|]. rewrite Ec. replace (2 ^ k) with (2 * 2 ^ j); [reflexivity|].
    rewrite <- Z.pow_succ_r by lia. f_equal.
    assert (j < k) by (apply (Z.pow_lt_mono_r_iff 2); lia).
    assert (k < j + 2); [|lia]. apply (Z.pow_lt_mono_r_iff 2); [lia|lia|].
    replace (2 ^ (j + 2)) with (2 * (2 * 2 ^ j)) by (rewrite Z.pow_add_r by lia; lia). lia.
  Qed.
End Code.

Lemma new_is_256 su : su_min su = 256 -> start su = brand_new.
Proof. intros E. unfold start, brand_new, arena_with_chunk_size, arena_new. rewrite E. reflexivity. Qed.
