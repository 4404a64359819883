(** The tests of src/tests.rs and examples of the documentation, run in the model.  They are
    no theorems about the code, but a check of the model: what passes in the crate passes here.
    All are run as debug builds, like [cargo test]. *)
From Verif Require Import Base BaseFacts Alloc AllocFacts Arena BlinkAlloc BlinkFacts History HistoryFacts Setup SetupFacts Concrete
  Blink BlinkInv BlinkReset BlinkOps BlinkIter BlinkMain BlinkEnv BlinkLog BlinkYield BlinkProps BlinkFate BlinkDemo.
From Verif Require Global GlobalProps GlobalDemo Proxy ProxyProps.

(** An integer of [n] bytes in memory. *)
Definition int_cells (n : nat) (v : Z) : list cell := Head v :: repeat Tail (n - 1).
Definition value_at (st : cst (AW (W := bworld))) (h : nat) (off n : Z) : option Z :=
  match get h (c_tab st) with Some u => load (memory st) (u_ptr u + off) n | None => None end.
Definition all_some {T} (l : list (option T)) : bool := forallb (fun x => match x with Some _ => true | None => false end) l.
(** ** src/tests.rs *)

(** 12-25 [test_local_alloc]: a [usize] is written, then the allocator reset. *)
Definition local_alloc : list op := [OpAlloc (mkLayout 8 8) false; OpWrite 0 0 (int_cells 8 42); OpReset true].
Example test_local_alloc :
  all_some (firstn 1 (results (demo megabytes) local_alloc)) = true /\
  value_at (final (demo megabytes) (firstn 2 local_alloc)) 0 0 8 = Some 42 /\
  c_tab (final (demo megabytes) local_alloc) = [None].
Proof. split; [vm_compute; reflexivity|]. split; vm_compute; reflexivity. Qed.

(** 27-61 [test_bad_iter]: 2000 elements from an iterator that promises nothing, collected
    into the only chunk there will ever be. *)
Definition sized (n : Z) (f : list uevent -> Layout -> option block) : setup :=
  mkSetup true (2 ^ 47) ISIZE_MAX USIZE_MAX n (checked (2 ^ 47) f).
Definition u32 : ty := mkTy 5 4 4 false false.
Fixpoint filtered (vs : list Z) : script :=
  match vs with
  | [] => SEnd 0 (Some 0)
  | v :: vs' => SNext 0 (Some (Z.of_nat (length vs))) BNil (NSome v) (filtered vs')
  end.
Definition two_thousand : list Z := map (fun i => Z.of_nat i - 1) (seq 1 2000).
Definition one_time : env := owned (sized (4 * 2000) stingy) calm.
Definition one_time_w : e_W one_time := c_w (start (sized (4 * 2000) stingy)).
Definition bad_iter : list bop := [BFromIter Emplace Aborts u32 (filtered two_thousand)].
Example test_bad_iter :
  returns (E := one_time) one_time_w (bad_iter ++ [BReset]) = true /\
  shown (last_state (E := one_time) one_time_w bad_iter) = [(5, map Some two_thousand)].
Proof. split; vm_compute; reflexivity. Qed.

(** 63-102 [test_reuse]: chunk size 0; 123 times [u32], a reset, and the same again. *)
Definition small (n : nat) : list op := repeat (OpAlloc (mkLayout 4 4) false) n.
Definition reuse : list op := small 123 ++ [OpReset true] ++ small 123.
Example test_reuse :
  all_some (firstn 123 (results (sized 0 megabytes) reuse)) = true /\
  all_some (skipn 124 (results (sized 0 megabytes) reuse)) = true /\
  length (results (sized 0 megabytes) reuse) = 247%nat.
Proof. split; [vm_compute; reflexivity|]. split; vm_compute; reflexivity. Qed.

(** 104-126 [test_emplace_no_drop]: the destructor of [Foo] (type 6) panics; it is not run.
    [foo.0 = world] writes through the first reference. *)
Definition foo : ty := mkTy 6 8 8 true true.
Definition string_ty : ty := mkTy 7 24 8 true true.
Definition never (id v : Z) : bool := id =? 6.
Definition foo_env : env := own_env megabytes never.
Definition foo_w : e_W foo_env := fresh megabytes.
Definition emplace_no_drop_test : list bop :=
  [BEmplace EmplaceNoDrop Aborts foo plainr plainr BNil (COk 100);
   BEmplace Put Aborts string_ty (mkRes 24 8 0) (mkRes 24 8 0) BNil (COk 200);
   BSet 0 0 200].
Example test_emplace_no_drop :
  shown (last_state (E := foo_env) foo_w (firstn 2 emplace_no_drop_test)) = [(6, [Some 100]); (7, [Some 200])] /\
  returns (E := foo_env) foo_w (emplace_no_drop_test ++ [BReset]) = true /\
  bl_log (last_state (E := foo_env) foo_w (emplace_no_drop_test ++ [BReset])) =
    [ENew false 6 [Some 100]; ENew true 7 [Some 200]; ESet 0 0 200; EReset; EDrop 7 200].
Proof. split; [vm_compute; reflexivity|]. split; vm_compute; reflexivity. Qed.

(** 128-143 [test_vec]: [Vec<i32>] has room for 4 elements, then for 8. *)
Definition vec_test : list op :=
  [OpAlloc (mkLayout 16 4) false;
   OpWrite 0 0 (int_cells 4 1); OpWrite 0 4 (int_cells 4 2); OpWrite 0 8 (int_cells 4 3);   (* extend([1, 2, 3]) *)
   OpWrite 0 12 (int_cells 4 4);                                                           (* push(4) *)
   OpResize 0 (mkLayout 16 4) (mkLayout 32 4); OpWrite 0 16 (int_cells 4 5);                (* extend(5..6) *)
   OpWrite 0 20 (int_cells 4 6)].                                                          (* push(6) *)
Definition vec_end : list op := [OpDealloc 0 (mkLayout 32 4); OpReset true].
Example test_vec :
  map (fun i => value_at (final (demo megabytes) vec_test) 0 (4 * i) 4) [0; 1; 2; 3; 4; 5] = map Some [1; 2; 3; 4; 5; 6] /\
  c_tab (final (demo megabytes) (vec_test ++ vec_end)) = [None].
Proof. split; vm_compute; reflexivity. Qed.

(** ** Examples of the documentation *)

(** src/blink.rs 53-92: [(0..10).filter(|x| x % 3 != 0)] collected in three ways, and the first
    element changed. *)
Definition i32 : ty := mkTy 8 4 4 false false.
Definition thirds : script := filtered [1; 2; 4; 5; 7; 8].
Definition collected (k : entry) : list bop := [BFromIter k Aborts i32 thirds; BSet 0 0 10].
Example doc_collect :
  shown (last_state w0 (collected Emplace)) = [(8, map Some [10; 2; 4; 5; 7; 8])] /\
  shown (last_state w0 (collected EmplaceShared)) = [(8, map Some [1; 2; 4; 5; 7; 8])] /\
  shown (last_state w0 (collected EmplaceNoDrop)) = [(8, map Some [10; 2; 4; 5; 7; 8])].
Proof. split; [vm_compute; reflexivity|]. split; vm_compute; reflexivity. Qed.

(** examples/global.rs: a [Box] and a [Vec] in blink mode, dropped before [direct_mode]. *)
Definition global_example : list Global.gop :=
  [Global.GBlink; Global.GAlloc (mkLayout 4 4) false; Global.GDealloc 0;
   Global.GAlloc (mkLayout 12 4) false; Global.GDealloc 1; Global.GDirect].
Example doc_global :
  forallb (fun sync =>
    match GlobalDemo.answers (Global.grun (bot (demo megabytes)) true sync (2 ^ 40) (fun _ _ => true) global_example
                                (GlobalProps.gstart (demo megabytes))) with
    | [Global.GDone; Global.GPtr _; Global.GDone; Global.GPtr _; Global.GDone; Global.GDone] => true
    | _ => false
    end) [true; false] = true.
Proof. vm_compute. reflexivity. Qed.

(** src/sync.rs 203-219: for each [i] a new proxy and a [Vec] with up to [1 + 28 * i] elements; all of
    it three times, with a reset of the shared allocator after each round. *)
Definition vec_grows (k n : nat) : list Proxy.pop :=
  map (fun i => let c := 16 * 2 ^ Z.of_nat i in Proxy.PUse (Some k) (OpResize 0 (mkLayout c 4) (mkLayout (2 * c) 4))) (seq 0 n).
(** How often a [Vec] with room for 4 elements has to grow. *)
Definition growths (i : nat) : nat := Z.to_nat (Z.log2_up (Z.max 4 (1 + 28 * Z.of_nat i)) - 2).
Definition task (round i : nat) : list Proxy.pop :=
  let k := (16 * round + i)%nat in
  [Proxy.PLocal; Proxy.PUse (Some k) (OpAlloc (mkLayout 16 4) false)] ++ vec_grows k (growths i) ++ [Proxy.PDrop k].
Definition round (r : nat) : list Proxy.pop := flat_map (task r) (seq 0 16) ++ [Proxy.PUse None (OpReset true)].
Definition three_rounds : list Proxy.pop := flat_map round [0; 1; 2]%nat.
Definition proxy_answers : list Proxy.pres :=
  match ProxyProps.proxy_run (demo megabytes) (2 ^ 30) (2 ^ 30) three_rounds (ProxyProps.proxy_start (demo megabytes)) with
  | ORet rs _ => rs
  | _ => []
  end.
(** The blocks handed out, one list for each [Vec]. *)
Fixpoint vecs (rs : list Proxy.pres) (cur : list Z) : list (list Z) :=
  match rs with
  | [] => []
  | Proxy.PBlock (Some b) :: rs' => vecs rs' (b_ptr b :: cur)
  | _ :: rs' => match cur with [] => vecs rs' [] | _ => cur :: vecs rs' [] end
  end.
Definition unmoved (ps : list Z) : bool := match ps with [] => true | p :: ps' => forallb (Z.eqb p) ps' end.
(** "Proxy will allocate enough memory to grow vec without reallocating on 2nd iteration and later." *)
Example doc_proxies :
  forallb (fun r => match r with Proxy.PDone | Proxy.PBlock _ => true | _ => false end) proxy_answers = true /\
  length (vecs proxy_answers []) = 48%nat /\
  forallb unmoved (skipn 16 (vecs proxy_answers [])) = true /\
  forallb unmoved (firstn 16 (vecs proxy_answers [])) = false.
Proof. split; [vm_compute; reflexivity|]. split; [vm_compute; reflexivity|]. split; vm_compute; reflexivity. Qed.
