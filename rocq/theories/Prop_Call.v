(** Property theorems C62: the exported functions on values, in the terms of C *)
From Verif Require Import TCall.
From Verif Require Import LSampleV.

(** C62: every function does with its arguments what the arithmetic of the specification says, in every profile, for both byte orders
    and whatever [uint64_t] is aligned to. Functions on values touch no memory; the others change one object. *)
Theorem c62_calls : forall P A E f args m eff, meaning f args = Some eff ->
  match eff with
  | Value r => c_call P A E f args m = Ret (m, r)
  | OnHand a g => forall bs, hand_ints bs = true -> hand_at_addr m a bs ->
      exists m', c_call P A E f args m = Ret (m', snd (g bs)) /\ hand_at_addr m' a (fst (g bs)) /\ only_changes m m' a 8
  | OnBits a g => forall w0 w1, words_ints w0 w1 = true -> a mod A = 0 -> bits_at_addr E m a w0 w1 ->
      exists m', c_call P A E f args m = Ret (m', snd (g w0 w1)) /\
        bits_at_addr E m' a (fst (fst (g w0 w1))) (snd (fst (g w0 w1))) /\ only_changes m m' a 16
  end.
Proof. exact c62_calls_pf. Qed.
Print Assumptions c62_calls.
Example c62_calls_ex :
  meaning F_Square_shift [VInt 61; VSigned (-2); VSigned 1] = Some (Value (VInt 44)) /\
  meaning F_Square_shift [VInt 61; VSigned (-2); VSigned 3] = Some (Value (VInt 0)) /\
  meaning F_Bitboard_flip [VBits 5 0] = Some (Value (VBits 0 (2 ^ 17 + 2 ^ 15))) /\
  meaning F_Piece_promote [VInt 23] = Some (Value (VInt 30)) /\
  c_call Release 4 Big F_Square_shift [VInt 61; VSigned (-2); VSigned 1] no_mem = Ret (no_mem, VInt 44) /\
  c_call Debug 8 Little F_Piece_promote [VInt 23] no_mem = Ret (no_mem, VInt 30) /\
  match meaning F_Hand_remove [VPtr 100; VInt 2] with
  | Some (OnHand a g) => a = 100 /\ g [0; 3; 0; 0; 0; 0; 0; 0] = ([0; 2; 0; 0; 0; 0; 0; 0], VBool true)
  | _ => False
  end.
Proof. vm_compute. repeat split. Qed.

(** C62: each function is exported, arguments of the types it is declared with are within its contract, except that the unchecked
    conversions need a number in their range, and then the result has the declared type and so has the object it changes. *)
Theorem c62_contract : forall f, exists e, In e rust_exports /\ re_name e = fn_name f /\
  forall args, typed (re_args e) args = true -> unchecked_fine f args = true ->
  exists eff, meaning f args = Some eff /\ effect_typed (re_ret e) eff.
Proof. exact c62_contract_pf. Qed.
Print Assumptions c62_contract.
Example c62_contract_ex :
  In (RExport "CompactMove_drop" [RNamed "Piece"; RNamed "Square"] (RNamed "CompactMove")) rust_exports /\
  typed [RNamed "Piece"; RNamed "Square"] [VInt 17; VInt 41] = true /\ meaning F_CompactMove_drop [VInt 17; VInt 41] = Some (Value (VInt 4521)) /\
  value_of (RNamed "CompactMove") (VInt 4521) = true /\ typed [RNamed "Piece"; RNamed "Square"] [VInt 15; VInt 41] = false /\
  value_of (RNamed "CompactMove") (VInt 60) = false.
Proof. split; [unfold rust_exports; repeat (first [left; reflexivity|right])|vm_compute; repeat split]. Qed.

(** C62: an integer that is no value of the declared Rust type, zero for a square, a piece or a move or anything but a discriminant for
    an enum, is undefined behaviour wherever it is passed. *)
Theorem c62_impossible : forall f, exists e, In e rust_exports /\ re_name e = fn_name f /\
  forall P A E args m i t v, length args = length (re_args e) -> nth_error (re_args e) i = Some t -> nth_error args i = Some v ->
  impossible t v = true -> c_call P A E f args m = UB.
Proof. exact c62_impossible_pf. Qed.
Print Assumptions c62_impossible.
Example c62_impossible_ex :
  impossible (RNamed "Square") (VInt 0) = true /\ impossible (RNamed "PieceKind") (VInt 15) = true /\ impossible (RNamed "Square") (VInt 82) = false /\
  c_call Release 8 Little F_Bitboard_contains [VBits 1 0; VInt 0] no_mem = UB /\ c_call Debug 8 Little F_Hand_is_hand_piece [VInt 15] no_mem = UB.
Proof. vm_compute. repeat split. Qed.

(** C62: an unchecked conversion of any other byte is undefined behaviour. *)
Theorem c62_unchecked : forall P A E f n k m, unchecked_limit f = Some n -> k < 256 -> within 1 n k = false -> c_call P A E f [VInt k] m = UB.
Proof. exact c62_unchecked_pf. Qed.
Print Assumptions c62_unchecked.
Example c62_unchecked_ex :
  c_call Release 8 Little F_Square_from_u8_unchecked [VInt 82] no_mem = UB /\ c_call Debug 8 Big F_Square_from_u8_unchecked [VInt 0] no_mem = UB /\
  c_call Release 8 Little F_Square_from_u8_unchecked [VInt 81] no_mem = Ret (no_mem, VInt 81) /\ within 1 81 82 = false /\
  c_call Release 4 Little F_GameResolution_from_u8_unchecked [VInt 6] no_mem = UB /\ unchecked_limit F_IllegalMoveKind_from_u8_unchecked = Some 7.
Proof. vm_compute. repeat split. Qed.

(** C62: a function that changes a bitboard through a pointer that is not aligned has undefined behaviour. *)
Theorem c62_misaligned : forall P A E f args m a g, meaning f args = Some (OnBits a g) -> a mod A <> 0 -> c_call P A E f args m = UB.
Proof. exact c62_misaligned_pf. Qed.
Print Assumptions c62_misaligned.
Example c62_misaligned_ex : (* the same memory, one byte further *)
  match meaning F_Bitboard_pop [VPtr 9] with Some (OnBits a _) => a mod 8 <> 0 | _ => False end /\
  c_call Release 8 Little F_Bitboard_pop [VPtr 9] (fun _ => Some 0) = UB /\ c_call Release 8 Little F_Bitboard_pop [VPtr 8] (fun _ => Some 0) <> UB /\
  c_call Debug 4 Big F_Bitboard_bitor_assign [VPtr 6; VBits 1 0] (fun _ => Some 0) = UB.
Proof. split; [vm_compute; discriminate|]. split; [vm_compute; reflexivity|]. split; [vm_compute; discriminate|vm_compute; reflexivity]. Qed.

(** C62: a C program on hands and bitboards, in variables and in memory, that uses nothing before it is set and keeps to the contracts
    runs without a panic or undefined behaviour, computes what the arithmetic says, and changes no memory but its own objects. *)
Theorem c62_programs : forall P A E env n k os w st, (forall x, v_var w x = None) -> v_placed A env n k (v_mem w) ->
  Forall (op_within n k) os -> v_meanings v_start os = Some st ->
  exists w', v_run P A E env os w = Ret w' /\ v_shows E env n k w' st /\
    forall x, (forall o, v_known n k o -> ~ in_object env o x) -> v_mem w' x = v_mem w x.
Proof. exact c62_programs_pf. Qed.
Print Assumptions c62_programs.
Example c62_programs_ex :
  v_placed 8 venv1 1 2 vram1 /\ Forall (op_within 1 2) vprogram1 /\
  vprogram1_agree (v_meanings v_start vprogram1) (v_run Debug 8 Big venv1 vprogram1 (VWorld vram1 (fun _ => None))) /\
  v_meanings v_start [OCall 0 F_Bitboard_pop [ABitsPtr 0]] = None /\ v_meanings v_start [OCall 0 F_Square_file [AVar 1]] = None.
Proof.
  split; [apply vram1_placed|]. split; [unfold vprogram1; repeat apply Forall_cons; try apply Forall_nil; cbn [op_within arg_within]; repeat apply Forall_cons; try apply Forall_nil;
    cbn [arg_within]; try exact I; lia|]. vm_compute. repeat split.
Qed.

(** C62: these are all the exported functions, except those that take or return a pointer to a position or a game. *)
Theorem c62_covers : forall e, In e rust_exports -> (exists f, fn_name f = re_name e) \/ about_positions e = true.
Proof. exact c62_covers_pf. Qed.
Print Assumptions c62_covers.
Example c62_covers_ex :
  about_positions (RExport "Position_ply" [RRef (RNamed "Position")] RU16) = true /\ about_positions (RExport "Hand_new" [] (RNamed "Hand")) = false /\
  about_positions (RExport "Bitboard_pop" [RMutRef (RNamed "Bitboard")] (RNamed "OptionSquare")) = false.
Proof. repeat split. Qed.
