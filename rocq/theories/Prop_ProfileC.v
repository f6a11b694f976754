(** Property theorems C80: what the overflow checks and the debug assertions of a build change for C programs *)
From Verif Require Import TProfileC.
From Verif Require Import LSampleN LSampleP LSampleQ LSampleT.

(** C80: whatever a C program does, misuse of pointers included, with one thread or many and with either library: with more checks it panics or does
    the same to the memory. *)
Theorem c80_c_anything : forall P Q, checks_more P Q ->
  (forall A E B env allocs pads fuel s w, same_or_panic (exec P A E B env allocs pads fuel s w) (exec Q A E B env allocs pads fuel s w)) /\
  (forall A E B envs allocs pads schedule sys, same_or_panic (sys_run P A E B envs allocs pads schedule sys) (sys_run Q A E B envs allocs pads schedule sys)) /\
  (forall U A E b env pads k os nw, same_or_panic (n_run P U A E b env pads k os nw) (n_run Q U A E b env pads k os nw)) /\
  (forall U s cs, same_or_panic (heap_run P U s cs) (heap_run Q U s cs)) /\
  (forall m a b n, same_or_panic (memcmp P m a b n) (memcmp Q m a b n)).
Proof. exact c80_c_anything_pf. Qed.
Print Assumptions c80_c_anything.
Example c80_c_anything_ex : (* use after free, and a bitboard that has only the stray bit *)
  checks_more Debug Release /\
  map (fun P => match exec P 8 Little box1 penv1 (fun _ => alloc1) (fun _ _ => 0) 100 pprogram2 (p_start ram1) with UB => 2 | Panic => 0 | Ret _ => 1 end) [Debug; Checked; Asserting; Release] = [2; 2; 2; 2] /\
  map (fun P => match c_call P 8 Little F_Bitboard_pop [VPtr 16] (fun a => if a =? 23 then Some 128 else Some 0) with UB => 2 | Panic => 0 | Ret _ => 1 end) [Debug; Checked; Asserting; Release] = [0; 1; 0; 1].
Proof. split; [split; reflexivity|]. split; vm_compute; reflexivity. Qed.

(** C80: a C program that reads no unset variable does the same to every byte of memory in all builds, also if it uses a dangling pointer or
    runs out of memory. *)
Theorem c80_c_programs : forall P Q A E B env Z allocs pads s m fuel, In A word_alignments -> box_ok A B -> (forall j, fresh_blocks A B (allocs j)) ->
  all_placed A env Z m -> stmt_within Z s -> runs fuel s p_state_start <> Unset ->
  exec P A E B env allocs pads fuel s (p_start m) = exec Q A E B env allocs pads fuel s (p_start m).
Proof. exact c80_c_programs_pf. Qed.
Print Assumptions c80_c_programs.
Example c80_c_programs_ex :
  box_ok 8 box1 /\ fresh_blocks 8 box1 alloc1 /\ all_placed 8 penv1 psize1 ram1 /\ stmt_within psize1 pprogram2 /\ runs 100 pprogram2 p_state_start <> Unset /\
  runs 100 pprogram1 p_state_start <> Unset /\
  forallb (fun P => match exec P 8 Little box1 penv1 (fun _ => alloc1) (fun _ _ => 0) 100 pprogram1 (p_start ram1) with
    | Ret (Some w) => match pw_var w 2 with Some (VInt n) => n =? 9 | _ => false end | _ => false end) [Checked; Release] = true.
Proof.
  split; [apply box1_ok|]. split; [apply alloc1_fresh|]. split; [apply ram1_all_placed|]. split; [cbn; repeat split|]. split; [discriminate|].
  split; [vm_compute; discriminate|]. vm_compute. reflexivity.
Qed.

(** C80: the same for threads under every schedule. *)
Theorem c80_c_threads : forall P Q A E B envs Zs allocs pads programs m schedule, In A word_alignments -> box_ok A B ->
  (forall i j, fresh_blocks A B (allocs i j)) -> threads_placed A envs Zs m -> (forall i, stmt_within (Zs i) (programs i)) ->
  (forall i, alone programs i (turns i schedule) <> Unset) ->
  sys_run P A E B envs allocs pads schedule (sys_start m programs) = sys_run Q A E B envs allocs pads schedule (sys_start m programs).
Proof. exact c80_c_threads_pf. Qed.
Print Assumptions c80_c_threads.
Example c80_c_threads_ex :
  box_ok 8 box1 /\ (forall i j, fresh_blocks 8 box1 (tallocs i j)) /\ threads_placed 8 tenvs tsizes ram3 /\ (forall i, stmt_within (tsizes i) (tprograms i)) /\
  (forall i, alone tprograms i (turns i tschedule1) <> Unset) /\ tsee (trun Asserting tprograms tschedule1) = tend1.
Proof.
  split; [exact box1_ok|]. split; [exact tallocs_fresh|]. split; [exact ram3_threads_placed|]. split; [exact tprograms_within|].
  split; [intros [|[|i]]; vm_compute; discriminate|]. vm_compute; reflexivity.
Qed.

(** C80: the same for programs linked with the no-std library. *)
Theorem c80_no_std : forall P Q U A E b env n k pads os m, In A word_alignments -> 18 < U -> build_ok U A b -> nb_base b mod nb_align b = 0 ->
  arena_free b m -> placed A env n k m -> Forall (hop_fine n k) os -> hclient_run hclient_start os <> Unset ->
  n_run P U A E b env pads 0 os (n_start m) = n_run Q U A E b env pads 0 os (n_start m).
Proof. exact c80_no_std_pf. Qed.
Print Assumptions c80_no_std.
Example c80_no_std_ex :
  build_ok 64 8 build1 /\ nb_base build1 mod nb_align build1 = 0 /\ arena_free build1 ram1 /\ placed 8 env1 2 2 ram1 /\ Forall (hop_fine 2 2) program2 /\
  hclient_run hclient_start program2 <> Unset /\
  agree2 (hclient_run hclient_start program2) (n_run Checked 64 8 Little build1 env1 (fun _ _ => 0) 0 program2 (n_start ram1)).
Proof.
  split; [apply build1_ok|]. split; [reflexivity|]. split; [apply arena1_free|]. split; [apply ram1_placed|]. split; [|split; [vm_compute; discriminate|vm_compute; repeat split]].
  unfold program2. repeat apply Forall_cons; try apply Forall_nil; cbn [hop_fine op_fine]; try exact I; try (vm_compute; lia);
    eexists; (split; [|reflexivity]); repeat split; discriminate.
Qed.

(** C80: the allocator, under every schedule of any number of threads, and [memcmp] do the same in all builds. *)
Theorem c80_runtime : forall P Q U,
  (forall cs, 17 < U -> Forall (valid_heap_choice U) cs -> heap_run P U alloc_init cs = heap_run Q U alloc_init cs) /\
  (forall m a b n, holds_bytes m -> memcmp P m a b n = memcmp Q m a b n).
Proof. exact c80_runtime_pf. Qed.
Print Assumptions c80_runtime.
Example c80_runtime_ex :
  Forall (valid_heap_choice 64) [Do (Call 0 (Layout 8 8)); Do (Call 1 (Layout 4 4)); Do (Attempt 1 false); Do (Attempt 0 true)] /\
  holds_bytes (fun a => if a <? 20 then Some (3 * a) else None) /\
  map (fun P => memcmp P (fun a => if a <? 20 then Some (3 * a) else None) 1 4 7) [Debug; Checked; Asserting; Release] = repeat (Ret (-9)%Z) 4 /\
  (* with a number that is no byte the overflow checks do matter *)
  map (fun P => match memcmp P (fun a => if a =? 0 then Some 0 else Some (2 ^ 31 + 1)) 0 1 1 with Panic => 0 | Ret _ => 1 | UB => 2 end) [Debug; Release] = [0; 1].
Proof.
  split; [|split; [|split; vm_compute; reflexivity]].
  - repeat apply Forall_cons; try apply Forall_nil; cbn [valid_heap_choice valid_choice]; try exact I;
      (split; [|vm_compute; reflexivity]); [exists 3|exists 2]; split; reflexivity.
  - intros a v. cbn beta. destruct (N.ltb_spec a 20); [|discriminate]. intros [= <-]. lia.
Qed.
