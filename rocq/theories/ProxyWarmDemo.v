(** Rounds of work on proxies. *)
From Verif Require Import Base BaseFacts Alloc AllocFacts Arena BlinkAlloc History HistoryFacts Setup SetupFacts Concrete
  BlinkDemo Proxy ProxyFacts ProxyProps ProxyDemo ProxyWarm.

Definition severalb {W} (A : Allocator W) (s : pst (W := W)) (k : nat) : bool :=
  match get k (ps_prox s) with
  | Some p =>
      match ar_root (px_arena p) with
      | Some r => match load (al_mem A (ps_w s)) (r + 16) 8 with Some q => negb (q =? 0) | None => false end
      | None => false
      end
  | None => false
  end.
Lemma severalb_spec {W} (A : Allocator W) s k : severalb A s k = true <-> several A s k.
Proof.
  unfold severalb, several. split.
  - destruct (get k (ps_prox s)) as [p|]; [|discriminate]. destruct (ar_root (px_arena p)) as [r|] eqn:E; [|discriminate].
    destruct (load (al_mem A (ps_w s)) (r + 16) 8) as [q|] eqn:E2; [|discriminate]. intros H. exists p, r, q. repeat (split; [assumption || reflexivity|]). lia.
  - intros (p & r & q & -> & -> & -> & H). lia.
Qed.

Notation wsu := (big megabytes).
Notation wrun os s := (proxy_run wsu (2 ^ 40) (2 ^ 20) os s).
Definition after_run (os : list pop) s := pfinal s (wrun os s).
Lemma after_run_ok os s b : pinv (su_amax wsu) (2 ^ 20) (ba wsu) (sown wsu) s b ->
  exists rs, wrun os s = ORet rs (after_run os s) /\ exists b', pinv (su_amax wsu) (2 ^ 20) (ba wsu) (sown wsu) (after_run os s) b'.
Proof. intros H. apply (run_final (os := os) (big_proxies megabytes) H). Qed.

(** Six blocks of 1000 bytes. *)
Definition chores (k : nat) : list pop := repeat (PUse (Some k) (OpAlloc (L 1000 8) false)) 6.
Definition w1 := after_run (PLocal :: chores 0) (proxy_start wsu).
Definition w1' := after_run [PDrop 0] w1.
Definition w2 := after_run (PLocal :: chores 1) w1'.
Definition w2' := after_run [PDrop 1] w2.
Definition w3 := after_run (PLocal :: chores 2) w2'.

Definition two_rounds : list round := [([], chores 0, PDrop 0, []); ([], chores 1, PDrop 1, [])].
Lemma two_outgrown : outgrown wsu (2 ^ 40) (2 ^ 20) 6042 two_rounds (proxy_start wsu).
Proof.
  destruct (after_run_ok (PLocal :: chores 0) _ _ (proxy_start_inv _ _ _ (big_proxies megabytes))) as (r1 & E1 & b1 & I1).
  destruct (after_run_ok [PDrop 0] _ _ I1) as (r1' & E1' & b1' & I1').
  destruct (after_run_ok (PLocal :: chores 1) _ _ I1') as (r2 & E2 & b2 & I2).
  destruct (after_run_ok [PDrop 1] _ _ I2) as (r2' & E2' & _).
  unfold two_rounds. cbn [outgrown].
  exists [], (proxy_start wsu), r1, w1, r1', w1'. split; [reflexivity|]. split; [exact E1|].
  change (length (ps_prox (proxy_start wsu))) with O.
  split; [vm_compute; discriminate|]. split; [apply severalb_spec; vm_compute; reflexivity|]. split; [left; reflexivity|]. split; [exact E1'|].
  assert (Hl : length (ps_prox w1') = 1%nat) by (vm_compute; reflexivity).
  exists [], w1', r2, w2, r2', w2'. split; [reflexivity|]. split; [exact E2|]. rewrite Hl.
  split; [vm_compute; discriminate|]. split; [apply severalb_spec; vm_compute; reflexivity|]. split; [left; reflexivity|]. split; [exact E2'|exact I].
Qed.
Lemma third_round : ~ several (ba wsu) w3 2.
Proof. intros H. apply severalb_spec in H. assert (E : severalb (ba wsu) w3 2 = false) by (vm_compute; reflexivity). rewrite E in H. discriminate H. Qed.

(** The documented example (src/sync.rs 196-216): a vector of [i32] that grows to 421 elements,
    on a new proxy in each iteration. *)
Definition doubling (k : nat) : list pop :=
  PUse (Some k) (OpAlloc (L 16 4) false) ::
  map (fun n => PUse (Some k) (OpResize 0 (L (2 ^ n) 4) (L (2 ^ (n + 1)) 4))) [4; 5; 6; 7; 8; 9; 10].
Definition v1 := after_run (PLocal :: doubling 0) (proxy_start wsu).
Definition v1' := after_run [PDrop 0; PUse None (OpReset true)] v1.
Definition v2 := after_run (PLocal :: doubling 1) v1'.
