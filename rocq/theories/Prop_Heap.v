(** Property theorems C60, C61: C programs with positions on the heap, and c_tests/position.c *)
From Verif Require Import THeap.
From Verif Require Import LSampleC.

(** C60: a C program that uses its pointers between [Position_startpos] and [Position_destruct] has no undefined behaviour; it stops only at
    a [Position_startpos] for which the allocator has no block. Results, variables and heap objects are those of the program over abstract positions, the objects
    left are those not destructed, and no other memory has changed. *)
Theorem c60_programs : forall P A E B env n k allocs pads os m st rs, In A word_alignments -> box_ok A B -> (forall j, fresh_blocks A B (allocs j)) ->
  placed A env n k m -> Forall (hop_fine n k) os -> hclient_run hclient_start os = Fine (st, rs) ->
  match h_run P A E B env allocs pads 0 os (world_start m) with
  | Ret (w, rs') => rs' = rs /\
      (forall i x, (i < n)%nat -> cl_pos (hc_local st) i = Some x -> shows A E (w_mem w) (at_pos env i) x) /\
      (forall t l, (t < k)%nat -> cl_text (hc_local st) t = Some l -> string_at (w_mem w) (at_text env t) l) /\
      (forall id x0 x ms, hc_object st id = Some (x0, x, ms) -> exists a, w_live w id = Some (a, ms) /\ object_at A E B (w_mem w) a x0 x) /\
      (forall id, hc_object st id = None -> w_live w id = None) /\
      (forall y, ~ in_object B w y -> (forall v, variable n k v -> ~ in_variable A env v y) -> w_mem w y = m y)
  | Panic => h_out_of_memory P A E B env allocs pads 0 os (world_start m)
  | UB => False
  end.
Proof. exact c60_programs_pf. Qed.
Print Assumptions c60_programs.
Example c60_programs_ex :
  box_ok 8 box1 /\ fresh_blocks 8 box1 alloc1 /\ placed 8 env1 2 2 ram1 /\ Forall (hop_fine 2 2) program1 /\
  agree1 (hclient_run hclient_start program1) (h_run Debug 8 Little box1 env1 (fun _ => alloc1) (fun _ _ => 0) 0 program1 (world_start ram1)) /\
  h_run Debug 8 Little box1 env1 (fun _ => alloc1) (fun _ _ => 0) 0 [HNew 0; HNew 0; HNew 0] (world_start ram1) = Panic.
Proof.
  split; [apply box1_ok|]. split; [apply alloc1_fresh|]. split; [apply ram1_placed|]. split.
  - unfold program1. repeat apply Forall_cons; try apply Forall_nil; cbn [hop_fine op_fine]; try exact I; try (vm_compute; lia);
      eexists; (split; [|reflexivity]); repeat split; discriminate.
  - split; vm_compute; repeat split.
Qed.

(** C60: using a pointer after [Position_destruct], a second [Position_destruct] or a pointer never set is undefined behaviour, unless the
    program stops before at a [Position_startpos] for which the allocator has no block. *)
Theorem c60_misuse : forall P A E B env n k allocs pads os m, In A word_alignments -> box_ok A B -> (forall j, fresh_blocks A B (allocs j)) ->
  placed A env n k m -> Forall (hop_fine n k) os -> hclient_run hclient_start os = Misused ->
  match h_run P A E B env allocs pads 0 os (world_start m) with
  | Ret _ => False
  | Panic => h_out_of_memory P A E B env allocs pads 0 os (world_start m)
  | UB => True
  end.
Proof. exact c60_misuse_pf. Qed.
Print Assumptions c60_misuse.
Example c60_misuse_ex :
  box_ok 8 box1 /\ fresh_blocks 8 box1 alloc1 /\ placed 8 env1 2 2 ram1 /\ Forall (hop_fine 2 2) [HNew 0; HAlias 1 0; HFree 0; HNew 0; HAsk 1 HPly] /\
  hclient_run hclient_start [HNew 0; HAlias 1 0; HFree 0; HNew 0; HAsk 1 HPly] = Misused /\
  hclient_run hclient_start [HNew 0; HFree 0; HFree 0] = Misused /\ hclient_run hclient_start [HAsk 7 HPly] = Misused /\
  h_run Release 8 Little box1 env1 (fun _ => alloc1) (fun _ _ => 0) 0 [HNew 0; HAlias 1 0; HFree 0; HNew 0; HAsk 1 HPly] (world_start ram1) = UB.
Proof.
  split; [apply box1_ok|]. split; [apply alloc1_fresh|]. split; [apply ram1_placed|]. split; [repeat apply Forall_cons; try apply Forall_nil; exact I|].
  vm_compute. auto.
Qed.

(** C60: and it does stop there: a program that comes to a [Position_startpos] for which the allocator has no block goes no further. *)
Theorem c60_out_of_memory : forall P A E B env allocs pads os m,
  h_out_of_memory P A E B env allocs pads 0 os (world_start m) -> h_run P A E B env allocs pads 0 os (world_start m) = Panic.
Proof. exact c60_out_of_memory_pf. Qed.
Print Assumptions c60_out_of_memory.
Example c60_out_of_memory_ex :
  h_out_of_memory Debug 8 Little box1 env1 (fun _ => alloc1) (fun _ _ => 0) 0 [HNew 0; HNew 1; HNew 2; HFree 7] (world_start ram1) /\
  hclient_run hclient_start [HNew 0; HNew 1; HNew 2; HFree 7] = Misused /\
  h_run Debug 8 Little box1 env1 (fun _ => alloc1) (fun _ _ => 0) 0 [HNew 0; HNew 1; HNew 2; HFree 7] (world_start ram1) = Panic /\
  h_run Debug 8 Little box1 env1 (fun _ => alloc1) (fun _ _ => 0) 0 [HNew 0; HNew 1; HFree 0; HNew 2; HFree 7] (world_start ram1) = UB.
Proof.
  split; [|split; [reflexivity|split; vm_compute; reflexivity]]. apply (out_of_run Debug 8 Little box1 env1 (fun _ => alloc1) (fun _ _ => 0) [HNew 0; HNew 1] 2 [HFree 7]).
  vm_compute. reflexivity.
Qed.

(** C60: a program that has destructed every object has given all memory back. *)
Theorem c60_no_leak : forall P A E B env n k allocs pads os m st rs w rs', In A word_alignments -> box_ok A B -> (forall j, fresh_blocks A B (allocs j)) ->
  placed A env n k m -> Forall (hop_fine n k) os -> hclient_run hclient_start os = Fine (st, rs) -> (forall id, hc_object st id = None) ->
  h_run P A E B env allocs pads 0 os (world_start m) = Ret (w, rs') -> forall y, w_mem w y = None <-> m y = None.
Proof. exact c60_no_leak_pf. Qed.
Print Assumptions c60_no_leak.
Example c60_no_leak_ex :
  box_ok 8 box1 /\ fresh_blocks 8 box1 alloc1 /\ placed 8 env1 2 2 ram1 /\ Forall (hop_fine 2 2) [HNew 0; HNew 1; HFree 0; HFree 1] /\
  (exists st rs, hclient_run hclient_start [HNew 0; HNew 1; HFree 0; HFree 1] = Fine (st, rs) /\ forall id, hc_object st id = None) /\
  match h_run Release 8 Big box1 env1 (fun _ => alloc1) (fun _ _ => 0) 0 [HNew 0; HNew 1; HFree 0; HFree 1] (world_start ram1) with
  | Ret (w, _) => map (w_mem w) (8192 :: 16384 :: 4095 :: nil) = [None; None; Some 255]
  | _ => False
  end.
Proof.
  split; [apply box1_ok|]. split; [apply alloc1_fresh|]. split; [apply ram1_placed|]. split; [repeat apply Forall_cons; try apply Forall_nil; exact I|].
  split; [|vm_compute; reflexivity]. eexists. eexists. split; [reflexivity|]. intros id. cbn. repeat (destruct (_ =? _); [reflexivity|]). reflexivity.
Qed.

(** C61: the test program returns 0: both assertions hold, whatever the target, the padding, the contents of uninitialised memory
    and the place of the block; all memory is given back. It fails to return only if the allocator has no block when asked. *)
Theorem c61_main : forall P A E B alloc pads pos buf lit1 lit2 m, In A word_alignments -> box_ok A B -> fresh_blocks A B alloc ->
  aligned A pos -> accessible m pos (position_size A) -> accessible m buf 200 ->
  (forall y, in_region pos (position_size A) y -> in_region buf 200 y -> False) ->
  (forall lit, lit = lit1 \/ lit = lit2 ->
     string_at m lit (bytes "lnsgkgsnl/1r5b1/ppppppppp/9/9/9/PPPPPPPPP/1B5R1/LNSGKGSNL b - 1") /\
     (forall y, in_region lit 64 y -> ~ in_region pos (position_size A) y /\ ~ in_region buf 200 y)) ->
  match c_main P A E B alloc pads pos buf lit1 lit2 (world_start m) with
  | Ret (w, status) => status = 0 /\ (forall id, w_live w id = None) /\ (forall y, w_mem w y = None <-> m y = None) /\
      (forall y, ~ in_region pos (position_size A) y -> ~ in_region buf 200 y -> w_mem w y = m y)
  | Panic => exists m', alloc m' = None /\ (forall y, m' y = None <-> m y = None) /\
      (forall y, ~ in_region pos (position_size A) y -> ~ in_region buf 200 y -> m' y = m y)
  | UB => False
  end.
Proof. exact c61_main_pf. Qed.
Print Assumptions c61_main.
Example c61_main_ex :
  box_ok 8 box1 /\ fresh_blocks 8 box1 alloc1 /\ aligned 8 1024 /\ accessible ram2 1024 (position_size 8) /\ accessible ram2 2048 200 /\
  (forall y, in_region 1024 (position_size 8) y -> in_region 2048 200 y -> False) /\
  string_at ram2 3000 (bytes "lnsgkgsnl/1r5b1/ppppppppp/9/9/9/PPPPPPPPP/1B5R1/LNSGKGSNL b - 1") /\
  (forall y, in_region 3000 64 y -> ~ in_region 1024 (position_size 8) y /\ ~ in_region 2048 200 y) /\
  match c_main Debug 8 Little box1 alloc1 (fun _ _ => 0) 1024 2048 3000 3000 (world_start ram2) with
  | Ret (w, status) => (status, w_mem w 8192, w_mem w 2110, w_mem w 2111) = (0, None, Some 49, Some 0)
  | _ => False
  end /\
  c_main Debug 8 Little box1 (fun _ => None) (fun _ _ => 0) 1024 2048 3000 3000 (world_start ram2) = Panic.
Proof.
  split; [apply box1_ok|]. split; [apply alloc1_fresh|]. split; [now exists 128|]. do 2 (split; [apply ram2_accessible; discriminate|]).
  split; [intros y; unfold in_region; change (position_size 8) with 368; lia|].
  split; [|split; [intros y; unfold in_region; change (position_size 8) with 368; lia|split; vm_compute; reflexivity]]. split; [|vm_compute; reflexivity].
  intros i b H. assert (L : (i < 63)%nat) by (change 63%nat with (List.length (bytes "lnsgkgsnl/1r5b1/ppppppppp/9/9/9/PPPPPPPPP/1B5R1/LNSGKGSNL b - 1")); apply nth_error_Some; congruence).
  do 63 (destruct i as [|i]; [injection H as <-; split; [vm_compute; reflexivity|discriminate]|]). lia.
Qed.
