(** Sample programs for the static checker. *)
From Verif Require Export SpecCheck LSampleP.

(** the program of [LSampleP] with the tests a careful programmer adds *)
Definition pprogram4 : c_stmt := block [
  SCall 0 (PStartpos 0);
  SCall 1 (PAsk (InVar 0) (KPlayer (int 1)));
  SValue (OBitsSet 0 (AVar 1));
  SSet 2 (int 0);
  SValue (OCall 3 F_Bitboard_pop [ABitsPtr 0]);
  SWhile (IsTrue (AVar 3)) (block [
    SCall 4 (PAsk (InVar 0) (KPieceAt (AVar 3)));
    SIf (IsTrue (AVar 4)) (block [
    SValue (OCall 5 F_Piece_piece_kind [AVar 4]);
    SIf (IsEqual (AVar 5) (int 1)) (block [
      SAdd 2 (AVar 2) (int 1);
      SValue (OCall 6 F_Square_file [AVar 3]);
      SIf (IsEqual (AVar 6) (int 7)) (block [
        SValue (OCall 7 F_Square_shift [AVar 3; ALit (VSigned 0); ALit (VSigned (-1))]);
        SIf (IsEqual (AVar 7) (int 0)) SSkip (block [
        SValue (OCall 8 F_CompactMove_normal [AVar 3; AVar 7; ALit (VBool false)]);
        SCall 0 (QStartpos 0); SCall 9 (QMove 0 (AVar 8)); SCall 0 (QSfen 0 1); SCall 10 (PAsk (Inside 0) KPly); SCall 11 (PAsk (Initially 0) KPly);
        SCall 0 (QDestruct 0)])]) SSkip]) SSkip]) SSkip;
    SValue (OCall 3 F_Bitboard_pop [ABitsPtr 0])]) ].
(** tries every drop of a pawn and every step forward, on the heap, through a pointer which is handed on *)
Definition pprogram5 : c_stmt := block [
  SCall 0 (QStartpos 0);
  SCall 0 (QAlias 3 0);
  SSet 1 (int 1);
  SValue (OCall 2 F_Hand_new []);
  SValue (OHandSet 0 (AVar 2));
  SWhile (IsLess (AVar 1) (int 82)) (block [
    SValue (OCall 4 F_CompactMove_drop [int 1; AVar 1]);
    SCall 5 (QMove 3 (AVar 4));
    SCall 6 (QAsk 3 (KPieceAt (AVar 1)));
    SIf (IsTrue (AVar 6)) (block [
      SValue (OCall 7 F_Piece_piece_kind [AVar 6]);
      SValue (OCall 8 F_Hand_add [AHandPtr 0; AVar 7]) ]) SSkip;
    SCall 9 (QAsk 3 KLastMove);
    SIf (IsTrue (AVar 9)) (SValue (OCall 10 F_CompactMove_to [AVar 9])) SSkip;
    SAdd 1 (AVar 1) (int 1)]);
  SValue (OCall 11 F_Square_from_u8_unchecked [int 81]);
  SValue (OHandGet 2 0);
  SCall 0 (QDestruct 3) ].
(** a pointer used after its object is gone; destructed twice; a result used untested; set in one branch only; no discriminant; lost in a loop *)
Definition rejected1 : list c_stmt := [
  block [SCall 0 (QStartpos 0); SCall 0 (QDestruct 0); SCall 1 (QAsk 0 KPly)];
  block [SCall 0 (QStartpos 0); SCall 0 (QAlias 1 0); SCall 0 (QDestruct 0); SCall 0 (QDestruct 1)];
  block [SValue (OCall 0 F_Square_new [int 9; int 10]); SValue (OCall 1 F_Square_file [AVar 0])];
  block [SIf (IsLess (int 1) (int 2)) (SSet 0 (int 1)) SSkip; SAdd 1 (AVar 0) (AVar 0)];
  SValue (OCall 0 F_PieceKind_from_u8_unchecked [int 15]);
  SWhile (IsTrue (int 1)) (SCall 0 (QStartpos 0)) ].
Definition end_var (x : nat) (r : outcome (option p_state)) : option c_val := match r with Fine (Some st) => vs_var (ps_val st) x | _ => None end.
Definition end_none (r : res (option p_world)) (y : N) : bool := match r with Ret (Some w) => match w_mem (pw_heap w) y with None => true | _ => false end | _ => false end.
