(** Property theorems C72: the rules of shogi *)
From Verif Require Import TRules.
From Verif Require Import LPiece LSample LSampleR LSampleW LRefine LSampleX.

(** C72: a move by which a piece goes where it may go is accepted, and the position shows what it did; only the king cannot be taken,
    and no hand may overflow. *)
Theorem c72_accepted : forall P s a m, reachable P s -> sees P s a -> valid_move m -> left_safe a ->
  (forall k, In k hand_kinds -> a_hand a (a_side a) k < 255) -> moves_right a m = true ->
  exists s', make_move P m s = Ret (s', Some tt) /\ sees P s' (after a m).
Proof. exact c72_accepted_pf. Qed.
Print Assumptions c72_accepted.
Example c72_accepted_ex : valid_move (rm 7 7 7 6 false) /\ (forall k, In k hand_kinds -> a_hand a_opening (a_side a_opening) k < 255) /\
  (forall P s, pp_startpos P = Ret s -> played P s /\ sees P s a_opening) /\ left_safe a_opening /\
  moves_right a_opening (rm 7 7 7 6 false) = true /\ moves_right a_opening (rm 7 7 7 5 false) = false /\
  a_board (after a_opening (rm 7 7 7 6 false)) (square_at 7 6) = Some (Pawn, Black).
Proof.
  split; [repeat split; discriminate|]. split; [intros k _; reflexivity|].
  split; [exact opening_played|]. repeat (split; [vm_compute; reflexivity|]). vm_compute. reflexivity.
Qed.

(** C72: every legal game can be played on the library from the starting position; every move is accepted, the position shown is the one
    the rules lead to, the player who has just moved is not in check, no piece is stuck, and no player has two pawns on a file. *)
Theorem c72_legal_game : forall P s0 ms, pp_startpos P = Ret s0 -> Forall valid_move ms -> legal_game a_opening ms = true ->
  exists s, run_ops P s0 (map OpMove ms) = Ret (s, repeat true (length ms)) /\ sees P s (after_all a_opening ms) /\
    left_safe (after_all a_opening ms) /\ none_stuck (after_all a_opening ms) /\ no_two_pawns (after_all a_opening ms).
Proof. exact c72_legal_game_pf. Qed.
Print Assumptions c72_legal_game.
Example c72_legal_game_ex : Forall valid_move rgame /\ legal_game a_opening rgame = true /\ legal_game a_opening rgame_bad = false /\
  map (fun m => match m with Drop _ _ => true | Normal _ _ _ => false end) rgame = [false; false; false; false; true].
Proof. split; [repeat constructor; try discriminate; apply piece_of_valid|]. repeat (split; [vm_compute; reflexivity|]). vm_compute. reflexivity. Qed.

(** C72: the checker that reads the position by calls to the library and decides by the rules answers Ok exactly for the legal moves,
    lists exactly these, each once, and agrees with itself. *)
Theorem c72_checker : forall P s a m, reachable P s -> sees P s a -> valid_move m -> let L := rules_checker P in
  (exists r, lc_is_legal_partial L s m = Ret r /\ (r = ROk <-> left_safe a /\ legal a m = true)) /\
  (exists b, lc_is_legal_partial_lite L s m = Ret b /\ (b = true <-> left_safe a /\ legal a m = true)) /\
  (exists l, lc_all_legal_moves_partial L s = Ret l /\ NoDup l /\ (In m l <-> left_safe a /\ legal a m = true)).
Proof. exact c72_checker_pf. Qed.
Print Assumptions c72_checker.
Example c72_checker_ex : reachable Debug (set_up_by corner) /\ sees Debug (set_up_by corner) (abs (set_up_by corner)) /\ valid_move (rd Pawn 1 2) /\
  length (legal_moves the_start) = 30%nat /\
  lc_is_legal_partial (rules_checker Debug) (set_up_by corner) (rd Pawn 1 2) = Ret (RErr DropPawnMate) /\
  lc_is_legal_partial (rules_checker Debug) (set_up_by corner) (rm 1 3 1 2 false) = Ret ROk.
Proof.
  split; [apply set_up_reachable, corner_valid|]. split; [apply set_up_sees, corner_valid|]. split; [split; [apply piece_of_valid|split; discriminate]|].
  repeat (split; [vm_compute; reflexivity|]). vm_compute. reflexivity.
Qed.

(** C72: its status says whether the game goes on: there is a legal move and the king that is not on turn is safe. *)
Theorem c72_status : forall P s a, reachable P s -> sees P s a ->
  exists st, rules_status P s = Ret st /\
    (st = PSInvalid <-> ~ left_safe a) /\
    (st = PSInProgress <-> left_safe a /\ exists m, valid_move m /\ legal a m = true) /\
    (st = (match a_side a with Black => PSWhiteWins | White => PSBlackWins end) <-> left_safe a /\ forall m, valid_move m -> legal a m = false) /\
    st <> PSDraw.
Proof. exact c72_status_pf. Qed.
Print Assumptions c72_status.
Example c72_status_ex : reachable Debug (set_up_by corner) /\ sees Debug (set_up_by corner) (abs (set_up_by corner)) /\
  rules_status Debug (set_up_by corner) = Ret PSInProgress /\
  rules_status Debug (set_up_by (corner ++ [at_ 1 2 Pawn Black; OpSide White])) = Ret PSBlackWins /\
  rules_status Debug (set_up_by (attacked ++ [OpSide White])) = Ret PSInvalid.
Proof.
  split; [apply set_up_reachable, corner_valid|]. split; [apply set_up_sees, corner_valid|].
  repeat (split; [vm_compute; reflexivity|]). vm_compute. reflexivity.
Qed.
(** the numbers of legal moves agree with well-known ones *)
Example c72_known_counts_ex :
  (number_legal (from_text (bytes "startpos")), number_legal (from_text most_moves), number_legal (from_text middle_game)) =
  (30, 593, 207).
Proof. vm_compute. reflexivity. Qed.

(** C72: it keeps the promise of the trait: a move it calls legal succeeds. *)
Theorem c72_honest : forall P, honest P (rules_checker P).
Proof. exact c72_honest_pf. Qed.
Print Assumptions c72_honest.
Example c72_honest_ex :
  lc_is_legal (rules_checker Debug) the_record (rm 7 7 7 6 false) = Ret ROk /\
  lc_is_legal (rules_checker Debug) the_record (rm 7 7 7 5 false) = Ret (RErr IncorrectMove) /\
  lc_is_legal (rules_checker Debug) (arbitrary_position (set_up_by (corner ++ [at_ 1 2 Pawn Black; OpSide White]))) (rm 1 1 1 2 false) = Ret (RErr GameFinished).
Proof. repeat (split; [vm_compute; reflexivity|]). vm_compute. reflexivity. Qed.

(** C72: played through the checker from the starting position, a list of moves meets with no error if and only if it is a legal game. *)
Theorem c72_checked_game : forall P p ms, pos_startpos P = Ret p -> Forall valid_move ms ->
  exists p' rs, lc_play P (rules_checker P) p ms = Ret (p', rs) /\ length rs = length ms /\
    (Forall (fun r => r = ROk) rs <-> legal_game a_opening ms = true) /\
    (legal_game a_opening ms = true -> sees P (inner p') (after_all a_opening ms)).
Proof. exact c72_checked_game_pf. Qed.
Print Assumptions c72_checked_game.
Example c72_checked_game_ex : pos_startpos Debug = Ret the_record /\ Forall valid_move rgame /\ Forall valid_move rgame_bad /\
  answers rgame = [true; true; true; true; true] /\ answers rgame_bad = [true; true; false; true].
Proof.
  split; [vm_compute; reflexivity|]. split; [repeat constructor; try discriminate; apply piece_of_valid|]. split; [repeat constructor; discriminate|].
  split; vm_compute; reflexivity.
Qed.

(** C72: the methods that answer with bitboards are right as well. *)
Theorem c72_candidates : forall P s a from to p, reachable P s -> sees P s a -> valid_square from -> valid_square to -> valid_piece p ->
  let ok m := left_safe a /\ legal a m = true in
  (exists b, rules_from P s from = Ret b /\ valid_bb b /\
     (bb_contains P b to = Ret true <-> ok (Normal from to false) \/ ok (Normal from to true))) /\
  (exists b, rules_to P s to p = Ret b /\ valid_bb b /\
     (bb_contains P b from = Ret true <-> piece_at P s from = Ret (Some p) /\ (ok (Normal from to false) \/ ok (Normal from to true)))) /\
  (exists b, rules_drop P s p = Ret b /\ valid_bb b /\ (bb_contains P b to = Ret true <-> ok (Drop p to))).
Proof. exact c72_candidates_pf. Qed.
Print Assumptions c72_candidates.
Example c72_candidates_ex : reachable Debug (set_up_by pawns) /\ sees Debug (set_up_by pawns) (abs (set_up_by pawns)) /\ valid_piece (piece_of Pawn Black) /\
  squares_of (rules_from Debug the_start (square_at 2 8)) = map (fun f => sq_repr (square_at f 8)) [1; 3; 4; 5; 6; 7] /\
  squares_of (rules_to Debug the_start (square_at 5 8) (piece_of Gold Black)) = [sq_repr (square_at 4 9); sq_repr (square_at 6 9)] /\
  length (squares_of (rules_drop Debug (set_up_by pawns) (piece_of Pawn Black))) = 56%nat.
Proof.
  split; [apply set_up_reachable, pawns_valid|]. split; [apply set_up_sees, pawns_valid|]. split; [apply piece_of_valid|].
  repeat (split; [vm_compute; reflexivity|]). vm_compute. reflexivity.
Qed.

(** C72: [make_move] does not check the rules: for each kind of illegal move there is one in a game in progress that it accepts. *)
Theorem c72_not_checked : forall P e, e <> GameFinished ->
  exists s a m s', reachable P s /\ sees P s a /\ valid_move m /\ status_of a = PSInProgress /\ legal a m = false /\ fault a m = e /\
    make_move P m s = Ret (s', Some tt).
Proof. exact c72_not_checked_pf. Qed.
Print Assumptions c72_not_checked.
Example c72_not_checked_ex :
  run_ops Debug the_start [OpMove (rm 7 7 2 7 false)] = Ret (the_start, [false]) /\
  is_some (do_move the_start (rm 7 7 3 3 false)) = true /\ legal a_opening (rm 7 7 3 3 false) = false.
Proof. repeat (split; [vm_compute; reflexivity|]). vm_compute. reflexivity. Qed.
