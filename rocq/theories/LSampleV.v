(** A concrete C program on values used in the examples beside the theorems. *)
From Verif Require Export LSample SpecCall.

(** the program of C62: a set of squares and a hand *)
Definition vprogram1 : list v_op :=
  [OCall 0 F_Square_new [ALit (VInt 7); ALit (VInt 7)]; OCall 1 F_Square_new_relative [ALit (VInt 2); ALit (VInt 3); ALit (VInt 2)];
   OCall 2 F_Bitboard_single [AVar 0]; OBitsSet 0 (AVar 2); OCall 3 F_Bitboard_single [AVar 1]; OCall 9 F_Bitboard_bitor_assign [ABitsPtr 0; AVar 3];
   OCall 4 F_Bitboard_flip [AVar 2]; OCall 9 F_Bitboard_bitxor_assign [ABitsPtr 0; AVar 4]; OBitsGet 5 0; OCall 6 F_Bitboard_count [AVar 5];
   OCall 7 F_Bitboard_pop [ABitsPtr 0]; OCall 8 F_Hand_new []; OHandSet 0 (AVar 8); OCall 9 F_Piece_piece_kind [ALit (VInt 22)];
   OCall 10 F_Hand_add [AHandPtr 0; AVar 9]; OCall 11 F_Hand_add [AHandPtr 0; ALit (VInt 8)]; OHandGet 12 0; OCall 13 F_Hand_count [AVar 12; AVar 9];
   OCall 14 F_CompactMove_normal [AVar 0; AVar 7; ALit (VBool true)]; OCall 15 F_CompactMove_from [AVar 14]].
Definition venv1 : v_env := VEnv (fun i => 100 + 8 * N.of_nat i) (fun i => 16 * N.of_nat i).
Definition vram1 : mem := fun a => if a <? 128 then Some 255 else None.
Lemma vram1_placed : v_placed 8 venv1 1 2 vram1.
Proof.
  split; [intros i H; destruct i as [|[|i]]; [reflexivity|reflexivity|lia]|]. split.
  - intros [i|i] V j L; exists 255; cbn [v_known v_region fst snd venv1 at_hand at_bits] in *; unfold vram1;
      match goal with |- (if ?a <? ?b then _ else _) = _ => destruct (N.ltb_spec a b); [reflexivity|lia] end.
  - intros [i|i] [j|j] x V W D; unfold in_object, in_region; cbn [v_known v_region fst snd venv1 at_hand at_bits] in *; intros X Y; try (assert (i <> j) by congruence); lia.
Qed.
Definition vprogram1_agree (a : option v_state) (b : res v_world) : Prop :=
  match a, b with
  | Some st, Ret w =>
      map (vs_var st) (seq 0 16) = map (v_var w) (seq 0 16) /\
      map (vs_var st) [0; 1; 6; 7; 9; 10; 11; 13; 14; 15]%nat =
        map Some [VInt 61; VInt 70; VInt 3; VInt 21; VInt 6; VBool true; VBool false; VInt 1; VInt 48405; VInt 61] /\
      vs_var st 12%nat = Some (VHand [0; 0; 0; 0; 0; 1; 0; 0]) /\ vs_bits st 0%nat = Some (2 ^ 60, 2 ^ 6) /\
      map (v_mem w) [0; 7; 15; 9; 105; 108; 128] = [Some 16; Some 0; Some 64; Some 0; Some 1; Some 255; None]
  | _, _ => False
  end.
