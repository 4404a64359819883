(** Concrete histories of a shared allocator and its proxies. *)
From Verif Require Import Base BaseFacts Alloc AllocFacts Arena BlinkAlloc History HistoryFacts Setup SetupFacts Concrete
  BlinkDemo Proxy ProxyFacts ProxyProps.

Lemma big_proxies f : proxies_ok (big f) (2 ^ 40) (2 ^ 20).
Proof.
  split; [apply big_ok|]. unfold big; cbn [su_dbg su_amax su_smax su_bmax su_min su_strat]. unfold USIZE_MAX, ISIZE_MAX.
  split; [lia|]. split; [lia|]. right. lia.
Qed.

(** The same with a release build and no limits. *)
Definition released (f : list uevent -> Layout -> option block) : setup :=
  mkSetup false (2 ^ 47) USIZE_MAX USIZE_MAX 256 (checked (2 ^ 47) f).
Lemma released_proxies f : proxies_ok (released f) USIZE_MAX USIZE_MAX.
Proof.
  split; [|].
  - unfold setup_ok, released; cbn [su_dbg su_amax su_smax su_bmax su_min su_strat]. split; [apply checked_honest|].
    unfold USIZE_MAX. repeat split; try lia.
  - unfold released; cbn [su_dbg su_amax su_smax su_bmax su_min su_strat]. unfold USIZE_MAX. split; [lia|]. split; [lia|]. left. auto.
Qed.

Definition presults {W B} (o : outcome W (list B)) : list B := match o with ORet rs _ => rs | _ => [] end.
Definition pfinal {W B} (d : W) (o : outcome W B) : W := match o with ORet _ s => s | _ => d end.

Definition tour : list pop :=
  [PLocal; PUse (Some 0%nat) (OpAlloc (L 100 8) false); PUse (Some 0%nat) (OpWrite 0 0 [Byte 1; Byte 2]);
   PUse None (OpAlloc (L 50 16) true); PLocal; PUse (Some 1%nat) (OpAlloc (L 3000 8) false);
   PUse (Some 0%nat) (OpAlloc (L 500 8) false); PUse (Some 1%nat) (OpResize 0 (L 3000 8) (L 3200 8));
   PReset 0; PUse (Some 0%nat) (OpAlloc (L 16 8) false); PUse None (OpReset true); PDrop 1; PLocal;
   PUse (Some 2%nat) (OpAlloc (L 1 1) false); PDrop 0; PDrop 0; PDrop 2; PUse None (OpReset false)].

(** A proxy that finishes, and one that is made later. *)
Definition before : list pop := firstn 11 tour.
Definition after : list pop := [PUse (Some 2%nat) (OpAlloc (L 1 1) false)].
Definition s_before := pfinal (proxy_start (big megabytes)) (proxy_run (big megabytes) (2 ^ 40) (2 ^ 20) before (proxy_start (big megabytes))).
Definition s_between := pfinal s_before (proxy_run (big megabytes) (2 ^ 40) (2 ^ 20) [PDrop 1] s_before).
Definition s_after := pfinal s_between (proxy_run (big megabytes) (2 ^ 40) (2 ^ 20) (PLocal :: after) s_between).

Lemma run_final {su a b os s d} : proxies_ok su a b -> pinv (su_amax su) b (ba su) (sown su) s d ->
  exists rs, proxy_run su a b os s = ORet rs (pfinal s (proxy_run su a b os s)) /\
    exists d', pinv (su_amax su) b (ba su) (sown su) (pfinal s (proxy_run su a b os s)) d'.
Proof.
  intros Hok I. destruct (proxy_run_inv su a b Hok os s d I) as (rs & s' & E & _ & I' & _). rewrite E. cbn [pfinal]. eauto.
Qed.
Lemma story : exists rs1 rs2 rs3,
  proxy_run (big megabytes) (2 ^ 40) (2 ^ 20) before (proxy_start (big megabytes)) = ORet rs1 s_before /\
  proxy_run (big megabytes) (2 ^ 40) (2 ^ 20) [PDrop 1] s_before = ORet rs2 s_between /\
  proxy_run (big megabytes) (2 ^ 40) (2 ^ 20) (PLocal :: after) s_between = ORet rs3 s_after.
Proof.
  pose proof (big_proxies megabytes) as Hok.
  destruct (run_final (os := before) Hok (proxy_start_inv _ _ _ Hok)) as (rs1 & E1 & d1 & I1).
  destruct (run_final (os := [PDrop 1]) Hok I1) as (rs2 & E2 & d2 & I2).
  destruct (run_final (os := PLocal :: after) Hok I2) as (rs3 & E3 & _).
  exists rs1, rs2, rs3. split; [exact E1|]. split; [exact E2|exact E3].
Qed.

(** In a debug build the first allocation of a proxy of the default size panics when it is
    zero-sized. *)
Definition empty_first : list pop := [PLocal; PUse (Some 0%nat) (OpAlloc (L 0 8) false)].
Lemma fresh_proxy_refuted : exists su psmax nmax os rs s,
  proxies_ok su psmax nmax /\ su_dbg su = true /\ proxy_run su psmax nmax os (proxy_start su) = ORet rs s /\ In PPanicked rs /\
  forall o, In o os -> o = PLocal \/ exists l, o = PUse (Some 0%nat) (OpAlloc l false) /\ layout_okb l = true.
Proof.
  pose proof (big_proxies megabytes) as Hok.
  destruct (run_final (os := empty_first) Hok (proxy_start_inv _ _ _ Hok)) as (rs & E & _).
  exists (big megabytes), (2 ^ 40), (2 ^ 20), empty_first, rs. eexists. split; [exact Hok|]. split; [reflexivity|]. split; [exact E|].
  assert (Er : rs = [PDone; PPanicked]).
  { transitivity (presults (proxy_run (big megabytes) (2 ^ 40) (2 ^ 20) empty_first (proxy_start (big megabytes)))).
    - rewrite E. reflexivity.
    - vm_compute. reflexivity. }
  rewrite Er. split; [right; left; reflexivity|]. intros o [<-|[<-|[]]]; [left; reflexivity|]. right. exists (L 0 8). split; reflexivity.
Qed.
