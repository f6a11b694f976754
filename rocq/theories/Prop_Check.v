(** Property theorems C70: C programs that pass a static check are safe *)
From Verif Require Import TCheck.
From Verif Require Import LSampleQ.

(** C70: a program that the checker accepts never uses anything before it is set, no argument it passes breaks a contract, and it uses no
    dangling pointer: it is safe in every profile and with every layout and allocator, and does what its meaning says. *)
Theorem c70_accepted : forall P A E B env Z allocs pads s m fuel, In A word_alignments -> box_ok A B -> (forall j, fresh_blocks A B (allocs j)) ->
  all_placed A env Z m -> stmt_within Z s -> accepted s = true ->
  match exec P A E B env allocs pads fuel s (p_start m) with
  | Ret (Some w) => exists st, runs fuel s p_state_start = Fine (Some st) /\ p_shows A E B env Z w st
  | Ret None => runs fuel s p_state_start = Fine None
  | Panic => p_out_of_memory P A E B env allocs pads s (p_start m)
  | UB => False
  end.
Proof. exact c70_accepted_pf. Qed.
Print Assumptions c70_accepted.
Example c70_accepted_ex : box_ok 8 box1 /\ fresh_blocks 8 box1 alloc1 /\
  accepted pprogram4 = true /\ accepted pprogram5 = true /\ accepted pprogram1 = false /\ accepted pprogram2 = false /\ map accepted rejected1 = [false; false; false; false; false; false] /\
  stmt_within psize1 pprogram4 /\ stmt_within psize1 pprogram5 /\ all_placed 8 penv1 psize1 ram1 /\
  pprogram1_agree (runs 100 pprogram4 p_state_start) (exec Debug 8 Little box1 penv1 (fun _ => alloc1) (fun _ _ => 0) 100 pprogram4 (p_start ram1)) /\
  map (fun s => runs 20 s p_state_start) (firstn 5 rejected1) = [Misused; Misused; Unset; runs 20 (nth 3 rejected1 SSkip) p_state_start; Unset].
Proof.
  split; [apply box1_ok|]. split; [apply alloc1_fresh|].
  repeat (split; [reflexivity|]). split; [cbn; repeat split; try lia; repeat apply Forall_cons; try apply Forall_nil; cbn [arg_within]; try exact I; lia|].
  split; [cbn; repeat split; try lia; repeat apply Forall_cons; try apply Forall_nil; cbn [arg_within]; try exact I; lia|].
  split; [apply ram1_all_placed|]. split; [vm_compute; repeat split|]. vm_compute. reflexivity.
Qed.

(** C70: what the checker says about the variables of a program holds whenever it ends: their values are within the types found. *)
Theorem c70_types : forall s F fuel st x t, check facts_start s = Some F -> runs fuel s p_state_start = Fine (Some st) -> lookup (k_var F) x = Some t ->
  exists v, vs_var (ps_val st) x = Some v /\ has_vty t v = true.
Proof. exact c70_types_pf. Qed.
Print Assumptions c70_types.
Example c70_types_ex :
  check facts_start pprogram5 = Some (Facts [(0%nat, TNothing); (2%nat, THand); (11%nat, TInt 1 81); (1%nat, TInt 82 255)] [] [0%nat] [] []) /\
  map (fun x => end_var x (runs 1000 pprogram5 p_state_start)) [1; 2; 11]%nat = [Some (VInt 82); Some (VHand [18; 4; 4; 4; 4; 2; 2; 0]); Some (VInt 81)].
Proof. split; [reflexivity|]. vm_compute. reflexivity. Qed.

(** C70: a program accepted with no pointer left that owns an object has given all memory back when it ends. *)
Theorem c70_no_leak : forall P A E B env Z allocs pads s m fuel w, In A word_alignments -> box_ok A B -> (forall j, fresh_blocks A B (allocs j)) ->
  all_placed A env Z m -> stmt_within Z s -> accepted_clean s = true ->
  exec P A E B env allocs pads fuel s (p_start m) = Ret (Some w) -> forall y, w_mem (pw_heap w) y = None <-> m y = None.
Proof. exact c70_no_leak_pf. Qed.
Print Assumptions c70_no_leak.
Example c70_no_leak_ex : box_ok 8 box1 /\ fresh_blocks 8 box1 alloc1 /\ all_placed 8 penv1 psize1 ram1 /\ stmt_within psize1 pprogram4 /\
  accepted_clean pprogram4 = true /\ accepted_clean pprogram5 = true /\ accepted (SCall 0 (QStartpos 0)) = true /\ accepted_clean (SCall 0 (QStartpos 0)) = false /\
  end_none (exec Release 8 Big box1 penv1 (fun _ => alloc1) (fun _ _ => 0) 100 pprogram4 (p_start ram1)) 8192 = true /\
  end_none (exec Release 8 Big box1 penv1 (fun _ => alloc1) (fun _ _ => 0) 9 (SCall 0 (QStartpos 0)) (p_start ram1)) 8192 = false.
Proof.
  split; [apply box1_ok|]. split; [apply alloc1_fresh|]. split; [apply ram1_all_placed|]. split; [cbn; repeat split; try lia; repeat apply Forall_cons; try apply Forall_nil; cbn [arg_within]; try exact I; lia|].
  do 4 (split; [reflexivity|]). split; vm_compute; reflexivity.
Qed.

(** C70: the checker does not reject everything: every call with constants of the declared types passes, if the unchecked conversions get
    a number in their range. *)
Theorem c70_constants : forall f e args x, interface_of f = Some e -> typed (re_args e) args = true -> unchecked_fine f args = true ->
  forallb (fun v => negb (is_pointer v)) args = true -> accepted (SValue (OCall x f (map ALit args))) = true.
Proof. exact c70_constants_pf. Qed.
Print Assumptions c70_constants.
Example c70_constants_ex : interface_of F_Square_shift = Some (RExport "Square_shift" [RNamed "Square"; RI8; RI8] (ROption (RNamed "Square"))) /\ typed [RNamed "Square"; RI8; RI8] [VInt 41; VSigned (-1); VSigned 3] = true /\ unchecked_fine F_Square_shift [VInt 41; VSigned (-1); VSigned 3] = true /\
  accepted (SValue (OCall 0 F_Square_shift [int 41; ALit (VSigned (-1)); ALit (VSigned 3)])) = true /\
  accepted (SValue (OCall 0 F_CompactMove_to [int (packed (nm 7 7 7 6 false))])) = true /\
  accepted (SValue (OCall 0 F_CompactMove_to [int 128])) = false /\ accepted (SValue (OCall 0 F_PieceKind_from_u8_unchecked [int 0])) = false /\
  accepted (SValue (OCall 0 F_Square_new [int 255; int 255])) = true /\ accepted (SValue (OCall 0 F_Square_new [int 256; int 1])) = false.
Proof.
  split; [reflexivity|]. split; [reflexivity|]. split; [reflexivity|].
  repeat split.
Qed.
