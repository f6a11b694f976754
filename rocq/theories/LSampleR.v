(** Positions for the examples and witnesses on the rules of shogi: set up on an empty board. *)
From Verif Require Import SpecRules.

Definition at_ (f r : N) (k : piece_kind) (c : color) : op := OpPieceSet (square_at f r) (Some (piece_of k c)).
(** Black has one piece of the kind in hand *)
Definition holds (k : piece_kind) : op := OpHand Black (Hand (map (fun i => if N.of_nat i =? kind_number k then 1 else 0) (seq 1 8))).
Definition rm (f r f' r' : N) (pr : bool) : move := Normal (square_at f r) (square_at f' r') pr.
Definition rd (k : piece_kind) (f r : N) : move := Drop (piece_of k Black) (square_at f r).
(** a pawn dropped in front of the king would mate it *)
Definition corner : list op := [at_ 1 1 King White; at_ 1 3 Gold Black; at_ 2 5 Rook Black; at_ 9 9 King Black; holds Pawn].
(** the black king is attacked by a rook *)
Definition attacked : list op := [at_ 5 9 King Black; at_ 5 1 Rook White; at_ 9 9 Gold Black; at_ 9 1 King White].
(** a pawn one step from the last rank, a pawn in hand, a pawn on the seventh file *)
Definition pawns : list op := [at_ 5 9 King Black; at_ 9 1 King White; at_ 5 2 Pawn Black; at_ 7 7 Pawn Black; holds Pawn].
(** bishops are exchanged and one is dropped *)
Definition rgame : list move := [rm 7 7 7 6 false; rm 3 3 3 4 false; rm 8 8 2 2 true; rm 3 1 2 2 false; rd Bishop 4 5].
(** ... the pawn cannot go back: the third move is not legal *)
Definition rgame_bad : list move := [rm 7 7 7 6 false; rm 3 3 3 4 false; rm 7 6 7 7 false; rm 8 8 2 2 true].
Definition the_start : partial_position := match pp_startpos Debug with Ret s => s | _ => pp_empty end.
Definition the_record : position := match pos_startpos Debug with Ret p => p | _ => arbitrary_position pp_empty end.
Definition set_up_by (os : list op) : partial_position := match run_ops Debug pp_empty os with Ret (s, _) => s | _ => pp_empty end.
Definition legal_moves (s : partial_position) : list move := match lc_all_legal_moves_partial (rules_checker Debug) s with Ret l => l | _ => [] end.
Definition next_pos (s : partial_position) (m : move) : partial_position := match make_move Debug m s with Ret (s, _) => s | _ => pp_empty end.
Definition answers (ms : list move) : list bool := match lc_play Debug (rules_checker Debug) the_record ms with Ret (_, rs) => map is_ok rs | _ => [] end.
Definition squares_of (r : res bitboard) : list N :=
  match r with Ret b => map sq_repr (filter (fun s => match bb_contains Debug b s with Ret x => x | _ => false end) squares) | _ => [] end.
