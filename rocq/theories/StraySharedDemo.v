(** Concrete cases for C78: threads among others. *)
From Verif Require Import Base BaseFacts Alloc AllocFacts Arena BlinkAlloc History HistoryFacts Setup SetupFacts Concrete Conc BlinkDemo Proxy ProxyDemo
  Shared SharedPaperDemo GConc GConcPaperDemo PConc PConcDemo PConcPaperDemo Stray StrayUse StrayDemo.

(** [shared_sched] (SharedPaperDemo.v), from the moment two threads share a chunk: another chunk is
    obtained, both are given back, and the others resize and free their blocks. *)
Definition o_sh1 := pfinal (ostart (demo megabytes) 2) (orun (demo megabytes) (firstn 22 shared_sched) (ostart (demo megabytes) 2)).
Definition o_sh2 := pfinal o_sh1 (orun (demo megabytes) (skipn 22 shared_sched) o_sh1).

(** [global_sched] (GConcPaperDemo.v), from the moment both threads have blocks; the block obtained in
    direct mode is freed in the end. *)
Definition m_gl1 := pfinal (mstart (demo megabytes) 2) (mrun (demo megabytes) (firstn 20 global_sched) (mstart (demo megabytes) 2)).
Definition m_gl2 := pfinal m_gl1 (mrun (demo megabytes) (skipn 20 global_sched) m_gl1).

Lemma shared_sched_tidy : is_ret (orun (demo megabytes) (firstn 22 shared_sched) (ostart (demo megabytes) 2)) = true /\
  is_ret (orun (demo megabytes) (skipn 22 shared_sched) o_sh1) = true /\
  let w1 := snd (g_aw (o_g o_sh1)) in let w2 := snd (g_aw (o_g o_sh2)) in
  length (bw_trace w1) = 3%nat /\ length (bw_trace w2) = 10%nat /\
  map (told w1 w2) [1048576; 2097152; 3145728; 5242880; 9437184] = [Some Undef; Some Undef; Some Undef; Some Undef; None] /\
  bw_mem w1 3145728 = Head 3145832 /\ bw_mem w1 1048576 = Byte 0 /\
  ~ no_stray w1 (spoil 3145728 w2).
Proof.
  split; [vm_compute; reflexivity|]. split; [vm_compute; reflexivity|]. cbv zeta. split; [vm_compute; reflexivity|].
  split; [vm_compute; reflexivity|]. split; [vm_compute; reflexivity|]. split; [vm_compute; reflexivity|].
  split; [vm_compute; reflexivity|]. apply (spoiled _ _ _ Undef); [vm_compute; reflexivity|discriminate].
Qed.
Lemma global_sched_tidy : is_ret (mrun (demo megabytes) (firstn 20 global_sched) (mstart (demo megabytes) 2)) = true /\
  is_ret (mrun (demo megabytes) (skipn 20 global_sched) m_gl1) = true /\
  let w1 := snd (g_aw (m_g m_gl1)) in let w2 := snd (g_aw (m_g m_gl2)) in
  length (bw_trace w1) = 3%nat /\ length (bw_trace w2) = 4%nat /\
  map (told w1 w2) [1048576; 1048624; 2097152; 2097152 + 512; 3145728] = [Some Undef; Some Undef; None; Some Undef; None] /\
  bw_mem w1 1048576 = Byte 0 /\ bw_mem w1 2097152 = Head 2097224 /\
  ~ no_stray w1 (spoil 1048576 w2).
Proof.
  split; [vm_compute; reflexivity|]. split; [vm_compute; reflexivity|]. cbv zeta. split; [vm_compute; reflexivity|].
  split; [vm_compute; reflexivity|]. split; [vm_compute; reflexivity|]. split; [vm_compute; reflexivity|].
  split; [vm_compute; reflexivity|]. apply (spoiled _ _ _ Undef); [vm_compute; reflexivity|discriminate].
Qed.

(** [proxy_sched] (PConcPaperDemo.v), from the moment thread 1 has written to a block of proxy 0: a resize
    needs a third chunk, the proxies are dropped and a reset frees the first two. *)
Definition r_px1 := pfinal (rstart ps0 3) (rrun ps0 (2 ^ 40) (2 ^ 20) (firstn 32 proxy_sched) (rstart ps0 3)).
Definition r_px2 := pfinal r_px1 (rrun ps0 (2 ^ 40) (2 ^ 20) (skipn 32 proxy_sched) r_px1).
Lemma proxy_sched_tidy : is_ret (rrun ps0 (2 ^ 40) (2 ^ 20) (firstn 32 proxy_sched) (rstart ps0 3)) = true /\
  is_ret (rrun ps0 (2 ^ 40) (2 ^ 20) (skipn 32 proxy_sched) r_px1) = true /\
  let w1 := snd (g_aw (r_g r_px1)) in let w2 := snd (g_aw (r_g r_px2)) in
  length (bw_trace w1) = 2%nat /\ length (bw_trace w2) = 5%nat /\
  map (told w1 w2) [1048576; 1048640; 2097152; 3145728; 4194304] = [Some Undef; Some Undef; Some Undef; None; Some Undef] /\
  bw_mem w1 1048640 = Byte 1 /\ bw_mem w1 2097152 = Head 2097440 /\
  ~ no_stray w1 (spoil 1048640 w2).
Proof.
  split; [vm_compute; reflexivity|]. split; [vm_compute; reflexivity|]. cbv zeta. split; [vm_compute; reflexivity|].
  split; [vm_compute; reflexivity|]. split; [vm_compute; reflexivity|]. split; [vm_compute; reflexivity|].
  split; [vm_compute; reflexivity|]. apply (spoiled _ _ _ Undef); [vm_compute; reflexivity|discriminate].
Qed.
