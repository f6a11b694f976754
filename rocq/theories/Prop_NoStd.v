(** Property theorems C64: C programs linked with the no-std library *)
From Verif Require Import TNoStd.
From Verif Require Import LSampleN.

(** C64: a C program linked with the no-std library that uses its pointers between [Position_startpos] and [Position_destruct] has no undefined
    behaviour. It returns exactly if the bundled allocator, asked for a block for every position and for every growth of a list of
    moves, has them all; then results, variables, positions and lists of moves in memory are those of the program over abstract
    positions, and no other memory has changed. *)
Theorem c64_programs : forall P U A E b env n k pads os m st rs, In A word_alignments -> 18 < U -> build_ok U A b -> nb_base b mod nb_align b = 0 ->
  arena_free b m -> placed A env n k m -> Forall (hop_fine n k) os -> hclient_run hclient_start os = Fine (st, rs) ->
  match n_run P U A E b env pads 0 os (n_start m) with
  | Ret (nw, rs') =>
      let w := nw_world nw in
      all_served (requests b hclient_start os) /\ rs' = rs /\ nw_rem nw = fst (serial_run (128 * 1024) (requests b hclient_start os)) /\
      (forall i x, (i < n)%nat -> cl_pos (hc_local st) i = Some x -> shows A E (w_mem w) (at_pos env i) x) /\
      (forall t l, (t < k)%nat -> cl_text (hc_local st) t = Some l -> string_at (w_mem w) (at_text env t) l) /\
      (forall id x0 x ms, hc_object st id = Some (x0, x, ms) ->
         exists a, w_live w id = Some (a, ms) /\ object_at A E (nb_box b) (w_mem w) a x0 x /\ moves_at b (w_mem w) (fst (nw_vec nw id)) ms) /\
      (forall id, hc_object st id = None -> w_live w id = None) /\
      (forall y, ~ in_object (nb_box b) w y -> ~ in_vector b nw y -> (forall v, variable n k v -> ~ in_variable A env v y) -> w_mem w y = m y)
  | Panic => ~ all_served (requests b hclient_start os)
  | UB => False
  end.
Proof. exact c64_programs_pf. Qed.
Print Assumptions c64_programs.
Example c64_programs_ex :
  build_ok 64 8 build1 /\ nb_base build1 mod nb_align build1 = 0 /\ arena_free build1 ram1 /\ placed 8 env1 2 2 ram1 /\ Forall (hop_fine 2 2) program2 /\
  agree2 (hclient_run hclient_start program2) (n_run Debug 64 8 Little build1 env1 (fun _ _ => 0) 0 program2 (n_start ram1)) /\
  requests build1 hclient_start program2 = [Layout 760 8; Layout 16 1; Layout 760 8; Layout 16 1; Layout 32 1].
Proof.
  split; [apply build1_ok|]. split; [reflexivity|]. split; [apply arena1_free|]. split; [apply ram1_placed|]. split.
  - unfold program2. repeat apply Forall_cons; try apply Forall_nil; cbn [hop_fine op_fine]; try exact I; try (vm_compute; lia);
      eexists; (split; [|reflexivity]); repeat split; discriminate.
  - split; vm_compute; repeat split.
Qed.

(** C64: using a pointer after [Position_destruct], a second [Position_destruct] or a pointer never set is undefined behaviour, unless the
    memory has run out before. *)
Theorem c64_misuse : forall P U A E b env n k pads os m, In A word_alignments -> 18 < U -> build_ok U A b -> nb_base b mod nb_align b = 0 ->
  arena_free b m -> placed A env n k m -> Forall (hop_fine n k) os -> hclient_run hclient_start os = Misused ->
  (all_served (requests b hclient_start os) -> n_run P U A E b env pads 0 os (n_start m) = UB) /\
  (~ all_served (requests b hclient_start os) -> n_run P U A E b env pads 0 os (n_start m) = Panic).
Proof. exact c64_misuse_pf. Qed.
Print Assumptions c64_misuse.
Example c64_misuse_ex :
  let os := [HNew 0; HAlias 1 0; HFree 0; HNew 0; HAsk 1 HPly] in
  build_ok 64 8 build1 /\ nb_base build1 mod nb_align build1 = 0 /\ arena_free build1 ram1 /\ placed 8 env1 2 2 ram1 /\ Forall (hop_fine 2 2) os /\
  hclient_run hclient_start os = Misused /\ n_run Release 64 8 Little build1 env1 (fun _ _ => 0) 0 os (n_start ram1) = UB /\
  n_run Release 64 8 Little build2 env1 (fun _ _ => 0) 0 [HNew 0; HAlias 1 0; HFree 0; HNew 0; HNew 2; HAsk 1 HPly] (n_start ram1) = Panic.
Proof.
  split; [apply build1_ok|]. split; [reflexivity|]. split; [apply arena1_free|]. split; [apply ram1_placed|].
  split; [repeat apply Forall_cons; try apply Forall_nil; exact I|]. vm_compute. auto.
Qed.

(** C64: nothing aligns [ARENA_BSS] (C47): where the linker puts it at an address that is not aligned for [PartialPosition], the first
    [Position_startpos] of any program is undefined behaviour. *)
Theorem c64_misaligned : forall P U A E b env pads h os m, In A word_alignments -> 18 < U -> build_ok U A b -> nb_align b <= 4096 ->
  bx_size (nb_box b) <= 128 * 1024 -> nb_base b mod position_align A <> 0 ->
  n_run P U A E b env pads 0 (HNew h :: os) (n_start m) = UB.
Proof. exact c64_misaligned_pf. Qed.
Print Assumptions c64_misaligned.
Example c64_misaligned_ex :
  let b := NBuild 65540 box1 8 4 code1 vec_grow in
  build_ok 64 8 b /\ nb_base b mod position_align 8 = 4 /\ n_run Release 64 8 Little b env1 (fun _ _ => 0) 0 [HNew 0; HFree 0] (n_start ram1) = UB.
Proof. split; [exact build1_ok|]. vm_compute. auto. Qed.

(** C64: [Position_destruct] does not help: a program that creates more than 128 KiB / size of [Position]s never returns, no matter how many
    exist at a time. *)
Theorem c64_positions : forall P U A E b env n k pads os m x, In A word_alignments -> 18 < U -> build_ok U A b -> nb_base b mod nb_align b = 0 ->
  arena_free b m -> placed A env n k m -> Forall (hop_fine n k) os -> hclient_run hclient_start os = Fine x ->
  128 * 1024 / bx_size (nb_box b) < N.of_nat (news os) -> n_run P U A E b env pads 0 os (n_start m) = Panic.
Proof. exact c64_positions_pf. Qed.
Print Assumptions c64_positions.
Example c64_positions_ex :
  let os := [HNew 0; HFree 0; HNew 0; HFree 0; HNew 0; HFree 0] in
  build_ok 64 8 build2 /\ nb_base build2 mod nb_align build2 = 0 /\ arena_free build2 ram1 /\ placed 8 env1 2 2 ram1 /\ Forall (hop_fine 2 2) os /\
  match hclient_run hclient_start os with Fine (_, rs) => rs = repeat CNothing 6 | _ => False end /\
  (news os, 128 * 1024 / bx_size (nb_box build2)) = (3%nat, 2) /\
  n_run Release 64 8 Big build2 env1 (fun _ _ => 0) 0 os (n_start ram1) = Panic.
Proof.
  split; [apply build2_ok|]. split; [reflexivity|]. split; [apply arena2_free|]. split; [apply ram1_placed|].
  split; [repeat apply Forall_cons; try apply Forall_nil; exact I|]. vm_compute. auto.
Qed.

(** C64: the moves are limited too: as a list of moves leaves its smaller blocks behind when it grows, a program that returns has no position with a
    list whose blocks would not all fit beside it. With 4 bytes to a move that is at most 8192 moves, with 3 at most 16384. *)
Theorem c64_moves : forall P U A E b env n k pads os m st rs nw rs' id x0 x ms, In A word_alignments -> 18 < U -> build_ok U A b -> nb_base b mod nb_align b = 0 ->
  arena_free b m -> placed A env n k m -> Forall (hop_fine n k) os -> hclient_run hclient_start os = Fine (st, rs) -> (forall c, nb_grow b c = vec_grow c) ->
  n_run P U A E b env pads 0 os (n_start m) = Ret (nw, rs') -> hc_object st id = Some (x0, x, ms) -> ms <> [] ->
  bx_size (nb_box b) + nb_elem b * (2 * capacity vec_grow (length ms) - 4) <= 128 * 1024 /\
  (nb_elem b = 4 -> N.of_nat (length ms) <= 8192) /\ (nb_elem b = 3 -> N.of_nat (length ms) <= 16384).
Proof. exact c64_moves_pf. Qed.
Print Assumptions c64_moves.
Example c64_moves_ex :
  build_ok 64 8 build1 /\ (forall c, nb_grow build1 c = vec_grow c) /\ nb_elem build1 = 4 /\ arena_free build1 ram1 /\ placed 8 env1 2 2 ram1 /\
  (exists st rs x0 x, hclient_run hclient_start [HNew 0; HMove 0 (cmove (nm 7 7 7 6 false))] = Fine (st, rs) /\ hc_object st 0 = Some (x0, x, [nm 7 7 7 6 false])) /\
  map (fun n => capacity vec_grow n) [0; 1; 4; 5; 8; 9; 33]%nat = [0; 4; 4; 8; 8; 16; 64] /\
  all_served (Layout 760 8 :: map (fun c => Layout (4 * c) 1) [4; 8; 16; 32; 64; 128; 256; 512; 1024; 2048; 4096; 8192]) /\
  ~ all_served (Layout 760 8 :: map (fun c => Layout (4 * c) 1) [4; 8; 16; 32; 64; 128; 256; 512; 1024; 2048; 4096; 8192; 16384]).
Proof.
  split; [apply build1_ok|]. split; [reflexivity|]. split; [reflexivity|]. split; [apply arena1_free|]. split; [apply ram1_placed|].
  split; [do 4 eexists; split; reflexivity|].
  split; [vm_compute; reflexivity|]. split; [intros H|intros H; apply H]; vm_compute in *; intuition discriminate.
Qed.

(** C64: a program that has destructed every position has given all its memory back, and yet the allocator cannot use it again: [remaining] is lower by
    at least the size of a [Position] for each one created. *)
Theorem c64_given_back : forall P U A E b env n k pads os m st rs nw rs', In A word_alignments -> 18 < U -> build_ok U A b -> nb_base b mod nb_align b = 0 ->
  arena_free b m -> placed A env n k m -> Forall (hop_fine n k) os -> hclient_run hclient_start os = Fine (st, rs) -> (forall id, hc_object st id = None) ->
  n_run P U A E b env pads 0 os (n_start m) = Ret (nw, rs') ->
  (forall y, w_mem (nw_world nw) y = None <-> m y = None) /\ nw_rem nw + N.of_nat (news os) * bx_size (nb_box b) <= 128 * 1024.
Proof. exact c64_given_back_pf. Qed.
Print Assumptions c64_given_back.
Example c64_given_back_ex :
  let os := [HNew 0; HMove 0 (cmove (nm 7 7 7 6 false)); HFree 0] in
  build_ok 64 8 build1 /\ arena_free build1 ram1 /\ placed 8 env1 2 2 ram1 /\ Forall (hop_fine 2 2) os /\
  (exists st rs, hclient_run hclient_start os = Fine (st, rs) /\ forall id, hc_object st id = None) /\
  match n_run Release 64 8 Big build1 env1 (fun _ _ => 0) 0 os (n_start ram1) with
  | Ret (nw, _) => nw_rem nw = 130296 /\ map (w_mem (nw_world nw)) [195832; 195848; 196607; 4095] = [None; None; None; Some 255]
  | _ => False
  end.
Proof.
  split; [apply build1_ok|]. split; [apply arena1_free|]. split; [apply ram1_placed|].
  split; [repeat apply Forall_cons; try apply Forall_nil; cbn [hop_fine]; try exact I; eexists; (split; [|reflexivity]); repeat split; discriminate|].
  split; [|vm_compute; auto]. eexists. eexists. split; [reflexivity|]. intros id. cbn. repeat (destruct (_ =? _); [reflexivity|]). reflexivity.
Qed.
