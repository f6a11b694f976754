(** Concrete C programs over the whole library used in the examples beside the theorems. *)
From Verif Require Export LSampleC LSampleV SpecProgram.

Definition penv1 : p_env := PEnv env1 (VEnv (fun i => 3072 + 8 * N.of_nat i) (fun i => 3584 + 16 * N.of_nat i)).
Definition psize1 : p_size := PSize 2 2 1 1.
Lemma ram1_all_placed : all_placed 8 penv1 psize1 ram1.
Proof.
  split; [exact ram1_placed|]. split.
  - split; [intros i H; cbn [psize1 sz_bits] in H; assert (i = 0%nat) as -> by lia; reflexivity|]. split.
    + intros [i|i] V j L; exists 255; cbn [v_known v_region fst snd penv1 p_objects at_hand at_bits psize1 sz_hand sz_bits] in *; unfold ram1;
        match goal with |- (if ?a <? ?b then _ else _) = _ => destruct (N.ltb_spec a b); [reflexivity|lia] end.
    + intros [i|i] [j|j] x V W D; unfold in_object, SpecCall.in_object, in_region; cbn [v_known v_region fst snd penv1 p_objects at_hand at_bits psize1 sz_hand sz_bits] in *;
        intros X Y; try (assert (i <> j) by congruence); lia.
  - intros [i|t] [j|j] y V W; unfold in_variable, SpecCall.in_object, in_region;
      cbn [variable v_known region v_region fst snd penv1 env1 p_positions p_objects at_pos at_text at_hand at_bits psize1 sz_pos sz_text sz_hand sz_bits] in *;
      change (position_size 8) with 368; lia.
Qed.
Fixpoint block (l : list c_stmt) : c_stmt := match l with [] => SSkip | [s] => s | s :: l => SSeq s (block l) end.
Definition int (n : N) : c_arg := ALit (VInt n).
(** counts the pawns of Black; pushes the one on file 7 in a game on the heap and writes the position after it *)
Definition pprogram1 : c_stmt := block [
  SCall 0 (PStartpos 0);
  SCall 1 (PAsk (InVar 0) (KPlayer (int 1)));
  SValue (OBitsSet 0 (AVar 1));
  SSet 2 (int 0);
  SValue (OCall 3 F_Bitboard_pop [ABitsPtr 0]);
  SWhile (IsTrue (AVar 3)) (block [
    SCall 4 (PAsk (InVar 0) (KPieceAt (AVar 3)));
    SValue (OCall 5 F_Piece_piece_kind [AVar 4]);
    SIf (IsEqual (AVar 5) (int 1)) (block [
      SAdd 2 (AVar 2) (int 1);
      SValue (OCall 6 F_Square_file [AVar 3]);
      SIf (IsEqual (AVar 6) (int 7)) (block [
        SValue (OCall 7 F_Square_shift [AVar 3; ALit (VSigned 0); ALit (VSigned (-1))]);
        SValue (OCall 8 F_CompactMove_normal [AVar 3; AVar 7; ALit (VBool false)]);
        SCall 0 (QStartpos 0); SCall 9 (QMove 0 (AVar 8)); SCall 0 (QSfen 0 1); SCall 10 (PAsk (Inside 0) KPly); SCall 11 (PAsk (Initially 0) KPly);
        SCall 0 (QDestruct 0)]) SSkip]) SSkip;
    SValue (OCall 3 F_Bitboard_pop [ABitsPtr 0])]) ].
Definition pprogram1_agree (a : outcome (option p_state)) (b : res (option p_world)) : Prop :=
  match a, b with
  | Fine (Some st), Ret (Some w) =>
      map (vs_var (ps_val st)) (seq 0 13) = map (pw_var w) (seq 0 13) /\
      map (vs_var (ps_val st)) [2; 3; 8; 9; 10; 11; 12]%nat =
        [Some (VInt 9); Some (VInt 0); Some (VInt (packed (nm 7 7 7 6 false))); Some (VBool true); Some (VInt 2); Some (VInt 1); None] /\
      cl_text (hc_local (ps_heap st)) 1%nat = Some (bytes "lnsgkgsnl/1r5b1/ppppppppp/9/9/2P6/PP1PPPPPP/1B5R1/LNSGKGSNL w - 2") /\
      map (w_mem (pw_heap w)) (range 2304 2312) = map (fun b => Some b) (bytes "lnsgkgsn") /\ (w_mem (pw_heap w) 8192, w_mem (pw_heap w) 3500) = (None, Some 255)
  | _, _ => False
  end.
(** destructs through one pointer and reads through another, in a loop *)
Definition pprogram2 : c_stmt := block [
  SCall 0 (QStartpos 0); SCall 0 (QAlias 1 0); SCall 1 (QAsk 0 KPly);
  SWhile (IsTrue (AVar 1)) (SSeq (SCall 1 (PAsk (Inside 1) KPly)) (SIf (IsTrue (AVar 1)) (SCall 0 (QDestruct 0)) SSkip))].
(** starts and ends games forever *)
Definition pprogram3 : c_stmt := SWhile (IsTrue (int 1)) (SSeq (SCall 0 (QStartpos 0)) (SCall 0 (QDestruct 0))).
Definition pprogram1_freed (a : outcome (option p_state)) (b : res (option p_world)) : Prop :=
  match a, b with
  | Fine (Some st), Ret (Some w) =>
      (hc_object (ps_heap st) 0, hc_object (ps_heap st) 1, hc_next (ps_heap st)) = (None, None, 1) /\ map (w_mem (pw_heap w)) [8192; 8951] = [None; None]
  | _, _ => False
  end.
