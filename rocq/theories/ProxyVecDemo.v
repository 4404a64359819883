(** Two vectors, one after the other, on proxies of their own: concrete runs for C83. *)
From Verif Require Import Base Alloc Arena BlinkAlloc History HistoryFacts Setup Concrete BlinkDemo Proxy ProxyProps ProxyDemo ProxyWarm ProxyWarmDemo ProxyVec.

(** [doubling 0] (ProxyWarmDemo.v), then its proxy is dropped.  The second vector has
    elements of alignment 64; others use the shared allocator and a proxy of their own
    meanwhile. *)
Definition wide (n : Z) : Layout := L n 64.
Definition second : list pop :=
  [PUse (Some 1%nat) (OpAlloc (wide 64) false); PUse None (OpAlloc (L 3000 8) false); PLocal;
   PUse (Some 1%nat) (OpResize 0 (wide 64) (wide 512)); PUse (Some 2%nat) (OpAlloc (L 100 8) false);
   PUse (Some 1%nat) (OpWrite 0 500 [Byte 7]); PUse (Some 2%nat) (OpResize 0 (L 100 8) (L 5000 8)); PDrop 2;
   PUse (Some 1%nat) (OpResize 0 (wide 512) (wide 2048))].
Definition x1' := after_run [PDrop 0] v1.
Definition x2 := after_run (PLocal :: second) x1'.

Lemma first_vector : vector_ops 0 4 2048 None (doubling 0).
Proof. cbn. repeat split; lia. Qed.
Lemma first_grown : exists u, owns v1 (Some 0%nat) 0 u /\ l_size (u_layout u) = 2048.
Proof. eexists. split; [|]. - eexists. split; vm_compute; reflexivity. - reflexivity. Qed.
Lemma second_vector : vector_ops 1 64 2048 None second.
Proof. cbn. repeat split; lia. Qed.
