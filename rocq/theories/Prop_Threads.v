(** Property theorems C71: C programs with threads *)
From Verif Require Import TThreads.
From Verif Require Import LSampleP LSampleQ LSampleT TCheck.

(** C71: threads that each run a program over the library on variables of their own, taking turns in any order, have no undefined
    behaviour as long as each of the programs by itself keeps to the contracts, and panic only when the allocator has no block for one of them. At any
    moment every thread has exactly what it would have after as many steps of its own, no two threads own a byte in common and the
    memory that none of them owns is as it was. *)
Theorem c71_threads : forall P A E B envs Zs allocs pads programs m schedule, In A word_alignments -> box_ok A B ->
  (forall i j, fresh_blocks A B (allocs i j)) -> threads_placed A envs Zs m -> (forall i, stmt_within (Zs i) (programs i)) ->
  (forall i, exists code st, alone programs i (turns i schedule) = Fine (code, st)) ->
  match sys_run P A E B envs allocs pads schedule (sys_start m programs) with
  | Ret sys =>
      (forall i, exists st, alone programs i (turns i schedule) = Fine (th_code (sy_thread sys i), st) /\ p_shows A E B (envs i) (Zs i) (now sys i) st) /\
      (forall i j y, i <> j -> own_byte A B (envs i) (Zs i) (pw_heap (now sys i)) y -> own_byte A B (envs j) (Zs j) (pw_heap (now sys j)) y -> False) /\
      (forall y, (forall i, ~ own_byte A B (envs i) (Zs i) (pw_heap (now sys i)) y) -> sy_mem sys y = m y)
  | Panic => sys_out_of_memory P A E B envs allocs pads schedule (sys_start m programs)
  | UB => False
  end.
Proof. exact c71_threads_pf. Qed.
Print Assumptions c71_threads.
Example c71_threads_ex :
  threads_placed 8 tenvs tsizes ram3 /\ (forall i, stmt_within (tsizes i) (tprograms i)) /\ (forall i j, fresh_blocks 8 box1 (tallocs i j)) /\ box_ok 8 box1 /\
  (turns 0 tschedule1, turns 1 tschedule1) = (9, 23)%nat /\ a_end (alone tprograms 0 7) = Some (2%nat, Some (VInt 2), Some 0) /\
  tsee (trun Debug tprograms tschedule1) = tend1.
Proof.
  split; [exact ram3_threads_placed|]. split; [exact tprograms_within|]. split; [exact tallocs_fresh|]. split; [exact box1_ok|]. split; [reflexivity|].
  split; vm_compute; reflexivity.
Qed.

(** C71: if one of the threads comes to use a dangling or unset pointer, it is undefined behaviour whatever the others do in between, unless
    the allocator has no block for one of them before. *)
Theorem c71_misuse : forall P A E B envs Zs allocs pads programs m schedule i, In A word_alignments -> box_ok A B ->
  (forall i j, fresh_blocks A B (allocs i j)) -> threads_placed A envs Zs m -> (forall i, stmt_within (Zs i) (programs i)) ->
  (forall j, alone programs j (turns j schedule) <> Unset) -> alone programs i (turns i schedule) = Misused ->
  match sys_run P A E B envs allocs pads schedule (sys_start m programs) with
  | Ret _ => False
  | Panic => sys_out_of_memory P A E B envs allocs pads schedule (sys_start m programs)
  | UB => True
  end.
Proof. exact c71_misuse_pf. Qed.
Print Assumptions c71_misuse.
Example c71_misuse_ex :
  box_ok 8 box1 /\ (forall i j, fresh_blocks 8 box1 (tallocs i j)) /\ threads_placed 8 tenvs tsizes ram3 /\ (forall i, stmt_within (tsizes i) (tprograms2 i)) /\
  (forall j, alone tprograms2 j (turns j [1; 0; 0; 1; 1; 0; 1; 0; 1]%nat) <> Unset) /\
  alone tprograms2 1 (turns 1 [1; 0; 0; 1; 1; 0; 1; 0; 1]%nat) = Misused /\ trun Release tprograms2 [1; 0; 0; 1; 1; 0; 1; 0; 1]%nat = UB /\
  tcode (trun Release tprograms2 [1; 0; 0; 1; 1; 0; 1; 0]%nat) 1 = Some (1%nat, None).
Proof.
  split; [exact box1_ok|]. split; [exact tallocs_fresh|]. split; [exact ram3_threads_placed|]. split; [intros [|[|i]]; cbn; repeat split; lia|].
  split; [intros [|[|j]]; discriminate|]. split; [vm_compute; reflexivity|]. split; vm_compute; reflexivity.
Qed.

(** C71: and then they do panic. *)
Theorem c71_out_of_memory : forall P A E B envs allocs pads programs m schedule,
  sys_out_of_memory P A E B envs allocs pads schedule (sys_start m programs) -> sys_run P A E B envs allocs pads schedule (sys_start m programs) = Panic.
Proof. exact c71_out_of_memory_pf. Qed.
Print Assumptions c71_out_of_memory.
Example c71_out_of_memory_ex :
  sys_out_of_memory Debug 8 Little box1 tenvs tallocs tpads [0; 1; 2; 0; 1; 2; 2; 0; 1]%nat (sys_start ram3 (fun _ => SSeq SSkip (SCall 0 (QStartpos 0)))) /\
  sys_out_of_memory Debug 8 Little box1 tenvs tallocs tpads (repeat 0 3 ++ repeat 1 3 ++ repeat 2 3)%nat (sys_start ram3 (fun _ => SSeq SSkip (SCall 0 (QStartpos 0)))) /\
  trun Debug (fun _ => SSeq SSkip (SCall 0 (QStartpos 0))) [0; 1; 2; 0; 1; 2; 2; 0; 1]%nat = Panic.
Proof.
  split; [|split]; [| |vm_compute; reflexivity].
  - apply (out_of_threads Debug 8 Little box1 tenvs tallocs tpads [0; 1; 2; 0; 1; 2; 2; 0]%nat 1%nat []). vm_compute. reflexivity.
  - apply (out_of_threads Debug 8 Little box1 tenvs tallocs tpads [0; 0; 0; 1; 1; 1; 2; 2]%nat 2%nat []). vm_compute. reflexivity.
Qed.

(** C71: the order in which the threads take their turns, the memory around them, the allocator and the build make no difference to any thread. *)
Theorem c71_schedules : forall P P' A E B envs Zs allocs allocs' pads pads' programs m m' schedule schedule' sys sys', In A word_alignments -> box_ok A B ->
  (forall i j, fresh_blocks A B (allocs i j)) -> (forall i j, fresh_blocks A B (allocs' i j)) ->
  threads_placed A envs Zs m -> threads_placed A envs Zs m' -> (forall i, stmt_within (Zs i) (programs i)) ->
  (forall i, exists code st, alone programs i (turns i schedule) = Fine (code, st)) -> (forall i, turns i schedule = turns i schedule') ->
  sys_run P A E B envs allocs pads schedule (sys_start m programs) = Ret sys ->
  sys_run P' A E B envs allocs' pads' schedule' (sys_start m' programs) = Ret sys' ->
  forall i, th_code (sy_thread sys i) = th_code (sy_thread sys' i) /\ (forall x, pw_var (now sys i) x = pw_var (now sys' i) x) /\
    exists st, p_shows A E B (envs i) (Zs i) (now sys i) st /\ p_shows A E B (envs i) (Zs i) (now sys' i) st.
Proof. exact c71_schedules_pf. Qed.
Print Assumptions c71_schedules.
Example c71_schedules_ex :
  map (fun i => Nat.eqb (turns i tschedule1) (turns i tschedule2)) [0; 1; 2]%nat = [true; true; true] /\ tschedule1 <> tschedule2 /\
  tsee (trun Release tprograms tschedule2) = tend1.
Proof. split; [reflexivity|]. split; [discriminate|]. vm_compute. reflexivity. Qed.

(** C71: a thread writes only to its own bytes, so never to those of another. *)
Theorem c71_writes : forall P A E B envs Zs allocs pads programs m schedule i sys sys', In A word_alignments -> box_ok A B ->
  (forall i j, fresh_blocks A B (allocs i j)) -> threads_placed A envs Zs m -> (forall i, stmt_within (Zs i) (programs i)) ->
  (forall j, exists code st, alone programs j (turns j (schedule ++ [i])) = Fine (code, st)) ->
  sys_run P A E B envs allocs pads schedule (sys_start m programs) = Ret sys -> sys_step P A E B envs allocs pads i sys = Ret sys' ->
  (forall y, ~ own_byte A B (envs i) (Zs i) (pw_heap (now sys i)) y -> ~ own_byte A B (envs i) (Zs i) (pw_heap (now sys' i)) y -> sy_mem sys' y = sy_mem sys y) /\
  forall j y, j <> i -> own_byte A B (envs j) (Zs j) (pw_heap (now sys j)) y -> sy_mem sys' y = sy_mem sys y.
Proof. exact c71_writes_pf. Qed.
Print Assumptions c71_writes.
Example c71_writes_ex :
  nth 22 tschedule1 9%nat = 0%nat /\
  tsame (trun Debug tprograms (firstn 22 tschedule1)) (trun Debug tprograms (firstn 23 tschedule1)) [0; 2304; 4096; 4112; 8192; 16384] = [true; true; true; true; false; true].
Proof. split; [reflexivity|]. vm_compute. reflexivity. Qed.

(** C71: a thread reads nothing but its own bytes: its next step does the same in any memory in which its own bytes are the same. *)
Theorem c71_reads : forall P A E B envs Zs allocs pads programs m schedule i sys m', In A word_alignments -> box_ok A B ->
  (forall i j, fresh_blocks A B (allocs i j)) -> threads_placed A envs Zs m -> (forall i, stmt_within (Zs i) (programs i)) ->
  (forall j, exists code st, alone programs j (turns j (schedule ++ [i])) = Fine (code, st)) ->
  sys_run P A E B envs allocs pads schedule (sys_start m programs) = Ret sys ->
  (forall y, own_byte A B (envs i) (Zs i) (pw_heap (now sys i)) y -> m' y = sy_mem sys y) ->
  match sys_step P A E B envs allocs pads i (System m' (sy_thread sys)) with
  | Ret sys' => exists st, alone programs i (S (turns i schedule)) = Fine (th_code (sy_thread sys' i), st) /\ p_shows A E B (envs i) (Zs i) (now sys' i) st
  | Panic => no_block (allocs i) (th_code (sy_thread sys i)) (with_shared m' (now sys i))
  | UB => False
  end.
Proof. exact c71_reads_pf. Qed.
Print Assumptions c71_reads.
Example c71_reads_ex :
  tcode (tnext (tspoil (trun Debug tprograms (firstn 13 tschedule1))) 0) 0 = tcode (trun Debug tprograms (firstn 13 tschedule1 ++ [0%nat])) 0 /\
  tcode (tnext (tspoil (trun Debug tprograms (firstn 13 tschedule1))) 0) 0 = Some (1%nat, Some (VInt 2)).
Proof. split; vm_compute; reflexivity. Qed.

(** C71: threads that have destructed all their objects have given all memory back. *)
Theorem c71_no_leak : forall P A E B envs Zs allocs pads programs m schedule sys, In A word_alignments -> box_ok A B ->
  (forall i j, fresh_blocks A B (allocs i j)) -> threads_placed A envs Zs m -> (forall i, stmt_within (Zs i) (programs i)) ->
  (forall i, exists code st, alone programs i (turns i schedule) = Fine (code, st) /\ forall id, hc_object (ps_heap st) id = None) ->
  sys_run P A E B envs allocs pads schedule (sys_start m programs) = Ret sys -> forall y, sy_mem sys y = None <-> m y = None.
Proof. exact c71_no_leak_pf. Qed.
Print Assumptions c71_no_leak.
Example c71_no_leak_ex : threads_placed 8 tenvs tsizes ram3 /\ (forall i, stmt_within (tsizes i) (tprograms i)) /\ (forall i j, fresh_blocks 8 box1 (tallocs i j)) /\ box_ok 8 box1 /\ (forall i, exists code st, alone tprograms i (turns i tschedule1) = Fine (code, st) /\ forall id, hc_object (ps_heap st) id = None) /\
  tmem (trun Debug tprograms (firstn 20 tschedule1)) [8192; 16384] = [Some 7; Some 7] /\ tmem (trun Debug tprograms tschedule1) [8192; 16384] = [None; None] /\
  map ram3 [8192; 16384] = [None; None].
Proof.
  split; [exact ram3_threads_placed|]. split; [exact tprograms_within|]. split; [exact tallocs_fresh|]. split; [exact box1_ok|]. split; [exact tschedule1_done|].
  split; [vm_compute; reflexivity|]. split; [vm_compute; reflexivity|]. reflexivity.
Qed.

(** C71: taking a program step by step comes to the same as running it: it ends in a state, misuses a pointer or reads something unset in
    one way exactly if it does so in the other. *)
Theorem c71_small_steps : forall s st,
  (forall st', (exists fuel, runs fuel s st = Fine (Some st')) <-> (exists n, a_steps n [s] st = Fine ([], st'))) /\
  ((exists fuel, runs fuel s st = Misused) <-> (exists n, a_steps n [s] st = Misused)) /\
  ((exists fuel, runs fuel s st = Unset) <-> (exists n, a_steps n [s] st = Unset)).
Proof. exact c71_small_steps_pf. Qed.
Print Assumptions c71_small_steps.
Example c71_small_steps_ex :
  a_end (a_steps 23 [tprogram1] p_state_start) = Some (0%nat, Some (VBool false), None) /\ a_end (a_steps 22 [tprogram1] p_state_start) = Some (1%nat, Some (VBool false), None) /\
  end_var 2 (runs 12 tprogram1 p_state_start) = Some (VBool false) /\ a_steps 5 [tprogram2] p_state_start = Misused /\ runs 4 tprogram2 p_state_start = Misused.
Proof. repeat split; vm_compute; reflexivity. Qed.

(** C71: threads running programs that the checker accepts have no undefined behaviour in any schedule. *)
Theorem c71_accepted : forall P A E B envs Zs allocs pads programs m schedule, In A word_alignments -> box_ok A B ->
  (forall i j, fresh_blocks A B (allocs i j)) -> threads_placed A envs Zs m -> (forall i, stmt_within (Zs i) (programs i)) ->
  (forall i, accepted (programs i) = true) ->
  match sys_run P A E B envs allocs pads schedule (sys_start m programs) with
  | Ret sys => forall i, exists st, alone programs i (turns i schedule) = Fine (th_code (sy_thread sys i), st) /\ p_shows A E B (envs i) (Zs i) (now sys i) st
  | Panic => sys_out_of_memory P A E B envs allocs pads schedule (sys_start m programs)
  | UB => False
  end.
Proof. exact c71_accepted_pf. Qed.
Print Assumptions c71_accepted.
Example c71_accepted_ex : threads_placed 8 tenvs tsizes ram3 /\ (forall i, stmt_within (tsizes i) (tprograms i)) /\ (forall i j, fresh_blocks 8 box1 (tallocs i j)) /\ (forall i, accepted (tprograms i) = true) /\
  map (fun i => accepted (tprograms i)) [0; 1; 2]%nat = [true; true; true] /\ accepted tprogram2 = false /\ tcode (trun Release tprograms (firstn 25 tschedule1)) 1 = Some (1%nat, Some (VBool false)).
Proof.
  split; [exact ram3_threads_placed|]. split; [exact tprograms_within|]. split; [exact tallocs_fresh|]. split; [intros [|[|i]]; reflexivity|].
  split; [reflexivity|]. split; [reflexivity|]. vm_compute. reflexivity.
Qed.

(** C71: when threads running programs that the checker accepts with nothing left have ended, all memory has been given back. *)
Theorem c71_accepted_clean : forall P A E B envs Zs allocs pads programs m schedule sys, In A word_alignments -> box_ok A B ->
  (forall i j, fresh_blocks A B (allocs i j)) -> threads_placed A envs Zs m -> (forall i, stmt_within (Zs i) (programs i)) ->
  (forall i, accepted_clean (programs i) = true) ->
  sys_run P A E B envs allocs pads schedule (sys_start m programs) = Ret sys -> (forall i, th_code (sy_thread sys i) = [] \/ turns i schedule = O) ->
  forall y, sy_mem sys y = None <-> m y = None.
Proof. exact c71_accepted_clean_pf. Qed.
Print Assumptions c71_accepted_clean.
Example c71_accepted_clean_ex : threads_placed 8 tenvs tsizes ram3 /\ (forall i, stmt_within (tsizes i) (tprograms i)) /\ (forall i j, fresh_blocks 8 box1 (tallocs i j)) /\ (forall i, accepted_clean (tprograms i) = true) /\
  map (fun i => accepted_clean (tprograms i)) [0; 1; 2]%nat = [true; true; true] /\ tleft (trun Release tprograms tschedule2) [0; 1; 2]%nat = [0; 0; 1]%nat /\ turns 2 tschedule2 = 0%nat.
Proof.
  split; [exact ram3_threads_placed|]. split; [exact tprograms_within|]. split; [exact tallocs_fresh|]. split; [intros [|[|i]]; reflexivity|].
  split; [reflexivity|]. split; [vm_compute; reflexivity|]. reflexivity.
Qed.

(** C71: a single thread does what the program of [C66] does. *)
Theorem c71_single : forall P A E B envs allocs pads programs m i,
  let runs_to := fun r => exists fuel, exec P A E B (envs i) (allocs i) (pads i) fuel (programs i) (p_start m) = r in
  let system n := sys_run P A E B envs allocs pads (repeat i n) (sys_start m programs) in
  (forall w, runs_to (Ret (Some w)) <-> exists n sys, system n = Ret sys /\ sy_thread sys i = Thread [] w) /\
  (runs_to Panic <-> exists n, system n = Panic) /\ (runs_to UB <-> exists n, system n = UB).
Proof. exact c71_single_pf. Qed.
Print Assumptions c71_single.
Example c71_single_ex :
  end_none (exec Debug 8 Little box1 (tenvs 1) (tallocs 1) (tpads 1) 12 tprogram1 (p_start ram3)) 8192 = true /\ tcode (trun Debug tprograms (repeat 1%nat 23)) 1 = Some (0%nat, Some (VBool false)).
Proof. split; vm_compute; reflexivity. Qed.
