(** Concrete cases for C78: the global allocators. *)
From Verif Require Import Base BaseFacts Alloc AllocFacts Arena BlinkAlloc History HistoryFacts Setup SetupFacts Concrete PaperDemo BlinkDemo
  Proxy ProxyFacts ProxyProps ProxyDemo Global GlobalFacts GlobalProps GlobalPaper GlobalPaperDemo GLocal GLocalFacts GLocalProps GLocalDemo
  Stray StrayUse StrayDemo StrayGlobal.

(** [trip] (GlobalPaperDemo.v): a block obtained directly, then two chunks, the first of which a reset frees; growing the direct block fails. *)
Definition c_tr1 sync := pfinal (gstart (demo megabytes)) (plain_run (demo megabytes) true sync (firstn 3 trip) (gstart (demo megabytes))).
Definition c_tr2 sync := pfinal (c_tr1 sync) (plain_run (demo megabytes) true sync (skipn 3 trip) (c_tr1 sync)).

(** [ltour] (GLocalDemo.v): both chunks are also used through proxies, and the first is freed; the block obtained directly goes back last. *)
Definition s_lt1 := pfinal (both_start (big megabytes)) (both_run (big megabytes) (2 ^ 40) (2 ^ 20) false true (firstn 5 ltour) (both_start (big megabytes))).
Definition s_lt2 := pfinal s_lt1 (both_run (big megabytes) (2 ^ 40) (2 ^ 20) false true (skipn 5 ltour) s_lt1).

Lemma trip_tidy sync : is_ret (plain_run (demo megabytes) true sync (firstn 3 trip) (gstart (demo megabytes))) = true /\
  is_ret (plain_run (demo megabytes) true sync (skipn 3 trip) (c_tr1 sync)) = true /\
  let w1 := snd (g_aw (gc_st (c_tr1 sync))) in let w2 := snd (g_aw (gc_st (c_tr2 sync))) in
  length (bw_trace w1) = 2%nat /\ length (bw_trace w2) = 5%nat /\
  map (told w1 w2) [1048575; 1048576; 2097152; 2097152 + 32; 3145728; 3145728 + 2048] = [Some Undef; None; Some Undef; Some Undef; None; Some Undef] /\
  bw_mem w1 2097152 = Head 2097284 /\
  ~ no_stray w1 (spoil 2097152 w2).
Proof.
  destruct sync; (split; [vm_compute; reflexivity|]; split; [vm_compute; reflexivity|]; cbv zeta; split; [vm_compute; reflexivity|];
    split; [vm_compute; reflexivity|]; split; [vm_compute; reflexivity|]; split; [vm_compute; reflexivity|];
    apply (spoiled _ _ _ Undef); [vm_compute; reflexivity|discriminate]).
Qed.
Lemma ltour_tidy : is_ret (both_run (big megabytes) (2 ^ 40) (2 ^ 20) false true (firstn 5 ltour) (both_start (big megabytes))) = true /\
  is_ret (both_run (big megabytes) (2 ^ 40) (2 ^ 20) false true (skipn 5 ltour) s_lt1) = true /\
  let w1 := snd (g_aw (gc_st (l_g s_lt1))) in let w2 := snd (g_aw (gc_st (l_g s_lt2))) in
  length (bw_trace w1) = 2%nat /\ length (bw_trace w2) = 5%nat /\
  map (told w1 w2) [1048575; 1048576; 2097152; 2097216; 3145728; 3145728 + 8192] = [Some Undef; Some Undef; Some Undef; Some Undef; None; Some Undef] /\
  bw_mem w1 2097216 = Byte 1 /\
  ~ no_stray w1 (spoil 2097216 w2).
Proof.
  split; [vm_compute; reflexivity|]. split; [vm_compute; reflexivity|]. cbv zeta. split; [vm_compute; reflexivity|].
  split; [vm_compute; reflexivity|]. split; [vm_compute; reflexivity|]. split; [vm_compute; reflexivity|].
  apply (spoiled _ _ _ Undef); [vm_compute; reflexivity|discriminate].
Qed.
