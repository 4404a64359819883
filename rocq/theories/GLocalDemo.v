(** Concrete histories of a global allocator with proxies. *)
From Verif Require Import Base BaseFacts Alloc AllocFacts Arena BlinkAlloc History HistoryFacts Setup SetupFacts Concrete
  BlinkDemo Proxy ProxyFacts ProxyProps ProxyDemo Global GlobalFacts GlobalProps GLocal GLocalFacts GLocalProps.

Definition lshow {W} (o : outcome (lst (W := W)) (list lres)) : option (list lres * list (option (bool * ublock)) * list (list (option ublock))) :=
  match o with
  | ORet rs s => Some (rs, gc_tab (l_g s), map (fun p => match p with Some p => px_tab p | None => [] end) (l_prox s))
  | _ => None
  end.
Lemma lshow_inv {W} (o : outcome (lst (W := W)) (list lres)) rs t ps : lshow o = Some (rs, t, ps) ->
  exists s, o = ORet rs s /\ gc_tab (l_g s) = t /\ map (fun p => match p with Some p => px_tab p | None => [] end) (l_prox s) = ps.
Proof. destruct o as [rs' s| | |]; cbn [lshow]; intros E; try discriminate E. injection E as <- <- <-. eauto. Qed.

Lemma shown_proxy {W} (s : lst (W := W)) ps k t h u :
  map (fun p => match p with Some p => px_tab p | None => [] end) (l_prox s) = ps -> nth_error ps k = Some t -> get h t = Some u ->
  lowns s (Some k) h u.
Proof.
  intros <- E G. rewrite nth_error_map in E. destruct (nth_error (l_prox s) k) as [[p|]|] eqn:Ek; cbn in E; try discriminate E.
  - injection E as <-. exists p. split; [|exact G]. unfold get. rewrite Ek. reflexivity.
  - injection E as <-. destruct h; discriminate G.
Qed.

(** Proxies in both modes; they are dropped before the resets. *)
Definition ltour : list lop :=
  [LGlobal (GAlloc (L 16 8) true); LProxy PLocal; LGlobal GReset; LProxy (PUse (Some 0%nat) (OpAlloc (L 100 8) false));
   LProxy (PUse (Some 0%nat) (OpWrite 0 0 [Byte 1; Byte 2])); LGlobal GBlink; LGlobal (GAlloc (L 40 8) false); LGlobal GReset;
   LProxy PLocal; LProxy (PUse (Some 1%nat) (OpAlloc (L 3000 8) false)); LGlobal (GWrite 1 0 [Byte 9]); LGlobal (GRealloc 1 80);
   LProxy (PDrop 0); LGlobal GDirect; LProxy (PDrop 1); LGlobal GDirect; LGlobal (GDealloc 1); LGlobal GDirect;
   LProxy PLocal; LProxy (PUse (Some 2%nat) (OpAlloc (L 8 8) true)); LGlobal (GDealloc 0)].

(** A proxy without a single block survives a reset.  The memory its chunk is in is handed
    out to the global allocator's client, and then by the proxy too. *)
Definition outlives : list lop :=
  [LGlobal GBlink; LProxy PLocal; LProxy (PUse (Some 0%nat) (OpAlloc (L 16 8) false)); LProxy (PReset 0); LGlobal GReset;
   LGlobal (GAlloc (L 100 8) false); LProxy (PUse (Some 0%nat) (OpAlloc (L 16 8) false))].
(** The client writes to the block it has got: the proxy's header is overwritten. *)
Definition destroys : list lop :=
  [LGlobal GBlink; LProxy PLocal; LProxy (PUse (Some 0%nat) (OpAlloc (L 16 8) false)); LProxy (PReset 0); LGlobal GReset;
   LGlobal (GAlloc (L 100 8) false); LGlobal (GWrite 0 0 (repeat Undef 32)); LProxy (PUse (Some 0%nat) (OpAlloc (L 16 8) false))].

Lemma idle_proxy_refuted : exists su psmax nmax lax, proxies_ok su psmax nmax /\
  (exists os rs s h1 u1 k h2 u2, both_run su psmax nmax lax false os (both_start su) = ORet rs s /\
     ~ In (RGlobal GPanicked) rs /\ lowns s None h1 u1 /\ lowns s (Some k) h2 u2 /\ ~ disjoint_u u1 u2) /\
  (exists os, both_run su psmax nmax lax false os (both_start su) = OUB).
Proof.
  exists (big megabytes), (2 ^ 40), (2 ^ 20), false. split; [exact (big_proxies _)|]. split.
  - destruct (lshow (both_run (big megabytes) (2 ^ 40) (2 ^ 20) false false outlives (both_start (big megabytes)))) as [[[rs t] ps]|] eqn:E;
      [|vm_compute in E; discriminate E].
    pose proof (lshow_inv _ _ _ _ E) as (s & E1 & E2 & E3). vm_compute in E. injection E as <- <- <-.
    exists outlives. eexists. exists s, 0%nat. eexists. exists 0%nat, 1%nat. eexists. split; [exact E1|]. split.
    { cbn [In]. intros X. repeat (destruct X as [X|X]; [discriminate X|]). exact X. }
    split; [exists true; rewrite E2; reflexivity|]. split; [eapply (shown_proxy s _ 0 _ 1 _ E3); reflexivity|].
    intros D. apply (D 1048640); unfold in_u; cbn [u_ptr u_len]; lia.
  - exists destroys. vm_compute. reflexivity.
Qed.
