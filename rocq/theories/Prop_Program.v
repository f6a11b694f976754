(** Property theorems C66: C programs over the whole library *)
From Verif Require Import TProgram.
From Verif Require Import LSampleP.

(** C66: a C program over the whole library, with values flowing through variables from call to call and with branches and loops, has no
    undefined behaviour at any moment of its run as long as the same program over abstract values keeps to the contracts; it panics
    only at a [Position_startpos] for which the allocator has no block. What it computes, what is in its variables and on the heap is what the abstract program says,
    and it changes no memory but its own. *)
Theorem c66_programs : forall P A E B env Z allocs pads s m fuel r, In A word_alignments -> box_ok A B -> (forall j, fresh_blocks A B (allocs j)) ->
  all_placed A env Z m -> stmt_within Z s -> runs fuel s p_state_start = Fine r ->
  match exec P A E B env allocs pads fuel s (p_start m) with
  | Ret (Some w) => exists st, r = Some st /\ p_shows A E B env Z w st /\
      forall y, ~ own_byte A B env Z (pw_heap w) y -> w_mem (pw_heap w) y = m y
  | Ret None => r = None
  | Panic => p_out_of_memory P A E B env allocs pads s (p_start m)
  | UB => False
  end.
Proof. exact c66_programs_pf. Qed.
Print Assumptions c66_programs.
Example c66_programs_ex : box_ok 8 box1 /\ fresh_blocks 8 box1 alloc1 /\
  all_placed 8 penv1 psize1 ram1 /\ stmt_within psize1 pprogram1 /\
  pprogram1_agree (runs 100 pprogram1 p_state_start) (exec Debug 8 Little box1 penv1 (fun _ => alloc1) (fun _ _ => 0) 100 pprogram1 (p_start ram1)) /\
  runs 20 pprogram3 p_state_start = Fine None /\ exec Release 8 Big box1 penv1 (fun _ => alloc1) (fun _ _ => 7) 4 pprogram3 (p_start ram1) = Ret None /\
  runs 9 (SCall 0 (QMove 0 (int 0))) p_state_start = Unset /\ runs 9 (SIf (IsTrue (AVar 0)) SSkip SSkip) p_state_start = Unset.
Proof.
  split; [apply box1_ok|]. split; [apply alloc1_fresh|].
  split; [apply ram1_all_placed|]. split; [cbn; repeat split; try lia; repeat apply Forall_cons; try apply Forall_nil; cbn [arg_within]; try exact I; lia|].
  split; [vm_compute; repeat split|]. repeat split; vm_compute; reflexivity.
Qed.

(** C66: using a dangling or unset pointer anywhere in such a program is undefined behaviour, unless the program stops before at a
    [Position_startpos] for which the allocator has no block. *)
Theorem c66_misuse : forall P A E B env Z allocs pads s m fuel, In A word_alignments -> box_ok A B -> (forall j, fresh_blocks A B (allocs j)) ->
  all_placed A env Z m -> stmt_within Z s -> runs fuel s p_state_start = Misused ->
  match exec P A E B env allocs pads fuel s (p_start m) with
  | Ret _ => False
  | Panic => p_out_of_memory P A E B env allocs pads s (p_start m)
  | UB => True
  end.
Proof. exact c66_misuse_pf. Qed.
Print Assumptions c66_misuse.
Example c66_misuse_ex :
  box_ok 8 box1 /\ fresh_blocks 8 box1 alloc1 /\ all_placed 8 penv1 psize1 ram1 /\ stmt_within psize1 pprogram2 /\
  runs 100 pprogram2 p_state_start = Misused /\ exec Debug 8 Little box1 penv1 (fun _ => alloc1) (fun _ _ => 0) 100 pprogram2 (p_start ram1) = UB /\
  runs 2 pprogram2 p_state_start = Fine None.
Proof.
  split; [apply box1_ok|]. split; [apply alloc1_fresh|]. split; [apply ram1_all_placed|]. split; [cbn; repeat split|]. split; [reflexivity|].
  split; [vm_compute; reflexivity|reflexivity].
Qed.

(** C66: and then it does panic. *)
Theorem c66_out_of_memory : forall P A E B env allocs pads s m, p_out_of_memory P A E B env allocs pads s (p_start m) ->
  exists fuel, forall more, (fuel <= more)%nat -> exec P A E B env allocs pads more s (p_start m) = Panic.
Proof. exact c66_out_of_memory_pf. Qed.
Print Assumptions c66_out_of_memory.
Example c66_out_of_memory_ex :
  p_out_of_memory Release 8 Little box1 penv1 (fun _ => alloc1) (fun _ _ => 0) (SWhile (IsTrue (int 1)) (SCall 0 (QStartpos 0))) (p_start ram1) /\
  exec Release 8 Little box1 penv1 (fun _ => alloc1) (fun _ _ => 0) 2 (SWhile (IsTrue (int 1)) (SCall 0 (QStartpos 0))) (p_start ram1) = Ret None /\
  exec Release 8 Little box1 penv1 (fun _ => alloc1) (fun _ _ => 0) 9 (SWhile (IsTrue (int 1)) (SCall 0 (QStartpos 0))) (p_start ram1) = Panic /\
  runs 9 (SWhile (IsTrue (int 1)) (SCall 0 (QStartpos 0))) p_state_start = Fine None.
Proof.
  split; [apply (out_of_steps _ _ _ _ _ _ _ 5); vm_compute; reflexivity|]. split; [vm_compute; reflexivity|]. split; vm_compute; reflexivity.
Qed.

(** C66: such a program that has destructed every object has given all memory back. *)
Theorem c66_no_leak : forall P A E B env Z allocs pads s m fuel st w, In A word_alignments -> box_ok A B -> (forall j, fresh_blocks A B (allocs j)) ->
  all_placed A env Z m -> stmt_within Z s -> runs fuel s p_state_start = Fine (Some st) -> (forall id, hc_object (ps_heap st) id = None) ->
  exec P A E B env allocs pads fuel s (p_start m) = Ret (Some w) -> forall y, w_mem (pw_heap w) y = None <-> m y = None.
Proof. exact c66_no_leak_pf. Qed.
Print Assumptions c66_no_leak.
Example c66_no_leak_ex : box_ok 8 box1 /\ fresh_blocks 8 box1 alloc1 /\ all_placed 8 penv1 psize1 ram1 /\ stmt_within psize1 pprogram1 /\
  pprogram1_freed (runs 100 pprogram1 p_state_start) (exec Release 8 Little box1 penv1 (fun _ => alloc1) (fun _ _ => 0) 100 pprogram1 (p_start ram1)).
Proof.
  split; [apply box1_ok|]. split; [apply alloc1_fresh|]. split; [apply ram1_all_placed|]. split; [cbn; repeat split; try lia; repeat apply Forall_cons; try apply Forall_nil; cbn [arg_within]; try exact I; lia|].
  vm_compute; repeat split.
Qed.

(** C66: every exported function can be called in such programs, except those on games, which C has no way to make. *)
Theorem c66_covers : forall e, In e rust_exports ->
  (exists f, fn_name f = re_name e) \/ (exists c, In (re_name e) (call_symbols c)) \/ about_games e = true.
Proof. exact c66_covers_pf. Qed.
Print Assumptions c66_covers.
Example c66_covers_ex :
  about_games (RExport "Game_unresolve" [RMutRef (RNamed "Game")] RUnit) = true /\ In "Position_ply"%string (call_symbols (QAsk 0 KPly)) /\
  In "Position_inner"%string (call_symbols (PCopy 0 (Inside 0))) /\ about_games (RExport "Position_inner" [RRef (RNamed "Position")] (RRef (RNamed "PartialPosition"))) = false.
Proof. cbn. auto. Qed.
