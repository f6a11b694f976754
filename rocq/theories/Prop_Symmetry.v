(** Property theorems C77: the symmetries of the rules *)
From Verif Require Import TSymmetry.
From Verif Require Import LPiece LSample LSampleR LSampleS LRefine TPosition TLaws LSampleX.

(** C77: turning the board round and exchanging the players changes nothing but names. A checker that reads the position by calls to the
    library and decides by the rules gives the same answer to a move and to the same move seen from the other side of the table, even the
    same error; the status names the other player, and the legal moves are the same seen from the other side. *)
Theorem c77_turned_answers : forall P s t a m, reachable P s -> reachable P t -> sees P s a -> sees P t (mirror a) -> valid_move m -> let L := rules_checker P in
  (exists r, lc_is_legal_partial L s m = Ret r /\ lc_is_legal_partial L t (mirror_move m) = Ret r) /\
  (exists r, lc_is_legal_partial_lite L s m = Ret r /\ lc_is_legal_partial_lite L t (mirror_move m) = Ret r) /\
  calls_agree other_side (lc_status_partial L s) (lc_status_partial L t) /\
  lists_agree mirror_move (lc_all_legal_moves_partial L s) (lc_all_legal_moves_partial L t).
Proof. exact c77_turned_answers_pf. Qed.
Print Assumptions c77_turned_answers.
Example c77_turned_answers_ex : reachable Debug (set_up_by corner) /\ reachable Debug (set_up_by (OpSide White :: map mirror_op corner)) /\ valid_move (rd Pawn 1 2) /\
  let t := set_up_by (OpSide White :: map mirror_op corner) in
  (exists a, sees Debug (set_up_by corner) a /\ sees Debug t (mirror a)) /\
  lc_is_legal_partial (rules_checker Debug) (set_up_by corner) (rd Pawn 1 2) = Ret (RErr DropPawnMate) /\
  lc_is_legal_partial (rules_checker Debug) t (mirror_move (rd Pawn 1 2)) = Ret (RErr DropPawnMate) /\
  mirror_move (rd Pawn 1 2) = Drop (piece_of Pawn White) (square_at 9 8) /\
  length (legal_moves (set_up_by corner)) = length (legal_moves t) /\ (30 < length (legal_moves t))%nat.
Proof.
  split; [apply set_up_reachable, corner_valid|]. split; [apply set_up_reachable; ops_valid|]. split; [split; [apply piece_of_valid|split; discriminate]|].
  split; [|repeat (split; [vm_compute; reflexivity|]); vm_compute; repeat constructor].
  assert (V : Forall valid_op corner) by (repeat constructor; vm_compute; intuition discriminate).
  destruct (c50_history_pf Debug pp_empty corner (or_introl eq_refl) V) as (s & t & bs & a & E & E' & S & S'). exists a. unfold set_up_by. rewrite E, E'. split; assumption.
Qed.

(** C77: the bitboards with which it answers are those of the other position flipped by the library. *)
Theorem c77_turned_boards : forall P s t a from to p, reachable P s -> reachable P t -> sees P s a -> sees P t (mirror a) ->
  valid_square from -> valid_square to -> valid_piece p -> let L := rules_checker P in
  exists b1 b2 b3,
    (b <- lc_normal_from_candidates L s from;; bb_flip P b) = Ret b1 /\ lc_normal_from_candidates L t (mirror_square from) = Ret b1 /\
    (b <- lc_normal_to_candidates L s to p;; bb_flip P b) = Ret b2 /\ lc_normal_to_candidates L t (mirror_square to) (mirror_piece p) = Ret b2 /\
    (b <- lc_drop_candidates L s p;; bb_flip P b) = Ret b3 /\ lc_drop_candidates L t (mirror_piece p) = Ret b3.
Proof. exact c77_turned_boards_pf. Qed.
Print Assumptions c77_turned_boards.
Example c77_turned_boards_ex : let t := set_up_by (OpSide White :: map mirror_op corner) in
  squares_of (rules_from Debug (set_up_by corner) (square_at 1 3)) = map sq_repr [square_at 1 2; square_at 1 4; square_at 2 2; square_at 2 3] /\
  squares_of (rules_from Debug t (square_at 9 7)) = map sq_repr [square_at 8 7; square_at 8 8; square_at 9 6; square_at 9 8].
Proof. split; vm_compute; reflexivity. Qed.

(** C77: so are the attacks, the squares a piece can go to and the drops of pawns worked out on whole bitboards; and check is check. *)
Theorem c77_turned_attacks : forall P s t a c from, reachable P s -> reachable P t -> sees P s a -> sees P t (mirror a) -> valid_square from ->
  (exists b, (b <- attack_set P s c;; bb_flip P b) = Ret b /\ attack_set P t (opponent c) = Ret b) /\
  in_check P t (opponent c) = in_check P s c /\
  (exists b, (b <- destinations P s from;; bb_flip P b) = Ret b /\ destinations P t (mirror_square from) = Ret b) /\
  (exists b, (b <- pawn_drops P s c;; bb_flip P b) = Ret b /\ pawn_drops P t (opponent c) = Ret b).
Proof. exact c77_turned_attacks_pf. Qed.
Print Assumptions c77_turned_attacks.
Example c77_turned_attacks_ex : let t := set_up_by (OpSide White :: map mirror_op attacked) in
  in_check Debug (set_up_by attacked) Black = Ret true /\ in_check Debug t White = Ret true /\ in_check Debug t Black = Ret false /\
  squares_of (b <- destinations Debug (set_up_by attacked) (square_at 9 9);; bb_flip Debug b) = map sq_repr [square_at 1 2; square_at 2 1; square_at 2 2] /\
  squares_of (destinations Debug t (square_at 1 1)) = map sq_repr [square_at 1 2; square_at 2 1; square_at 2 2].
Proof. repeat (split; [vm_compute; reflexivity|]). vm_compute. reflexivity. Qed.

(** C77: a whole game. Two positions of which one is the other turned round, played by the same moves seen from either side through the
    checker that knows the rule of repetition, give the same answers and the same record, and the game stands as it does with the players
    exchanged. *)
Theorem c77_turned_game : forall P p0 p0' s0 t0 a0 ms, created P p0 s0 -> created P p0' t0 -> sees P s0 a0 -> sees P t0 (mirror a0) -> few_pieces a0 -> Forall valid_move ms ->
  exists p p' rs st, lc_play P (full_checker P) p0 ms = Ret (p, rs) /\ lc_play P (full_checker P) p0' (map mirror_move ms) = Ret (p', rs) /\
    moves p' = map mirror_move (moves p) /\
    lc_status (full_checker P) p = Ret st /\ lc_status (full_checker P) p' = Ret (other_side st).
Proof. exact c77_turned_game_pf. Qed.
Print Assumptions c77_turned_game.
Example c77_turned_game_ex : few_pieces (abs (set_up_by hunt)) /\ created Debug (arbitrary_position (set_up_by hunt)) (set_up_by hunt) /\ created Debug (arbitrary_position (set_up_by (OpSide White :: map mirror_op hunt))) (set_up_by (OpSide White :: map mirror_op hunt)) /\ Forall valid_move (hunted ++ [rm 4 5 5 5 false]) /\
  let t := set_up_by (OpSide White :: map mirror_op hunt) in
  full_answers (arbitrary_position (set_up_by hunt)) (hunted ++ [rm 4 5 5 5 false]) = (repeat true 12 ++ [false], Some PSWhiteWins) /\
  full_answers (arbitrary_position t) (map mirror_move (hunted ++ [rm 4 5 5 5 false])) = (repeat true 12 ++ [false], Some PSBlackWins).
Proof.
  split; [intros k K; cbn [In hand_kinds] in K; repeat (destruct K as [<-|K]; [vm_compute; discriminate|]); destruct K|]. split; [constructor; apply set_up_reachable, hunt_valid|]. split; [constructor; apply set_up_reachable; ops_valid|]. split; [repeat constructor; discriminate|].
  split; vm_compute; reflexivity.
Qed.

(** C77: the same of the left-right reflection, which leaves the players as they are. The rules prefer no side of the board. *)
Theorem c77_reflected_answers : forall P s t a m, reachable P s -> reachable P t -> sees P s a -> sees P t (reflection a) -> valid_move m -> let L := rules_checker P in
  (exists r, lc_is_legal_partial L s m = Ret r /\ lc_is_legal_partial L t (reflect_move m) = Ret r) /\
  (exists r, lc_is_legal_partial_lite L s m = Ret r /\ lc_is_legal_partial_lite L t (reflect_move m) = Ret r) /\
  calls_agree (fun st => st) (lc_status_partial L s) (lc_status_partial L t) /\
  lists_agree reflect_move (lc_all_legal_moves_partial L s) (lc_all_legal_moves_partial L t).
Proof. exact c77_reflected_answers_pf. Qed.
Print Assumptions c77_reflected_answers.
Example c77_reflected_answers_ex : reachable Debug (set_up_by corner) /\ reachable Debug (set_up_by (map (relabel_op left_right) corner)) /\ valid_move (rd Pawn 1 2) /\
  let t := set_up_by (map (relabel_op left_right) corner) in
  (exists a, sees Debug (set_up_by corner) a /\ sees Debug t (reflection a)) /\
  reflect_move (rd Pawn 1 2) = rd Pawn 9 2 /\
  lc_is_legal_partial (rules_checker Debug) t (rd Pawn 9 2) = Ret (RErr DropPawnMate) /\
  lc_is_legal_partial (rules_checker Debug) t (rm 9 3 9 2 false) = Ret ROk /\
  length (legal_moves (set_up_by corner)) = length (legal_moves t).
Proof.
  split; [apply set_up_reachable, corner_valid|]. split; [apply set_up_reachable; ops_valid|]. split; [split; [apply piece_of_valid|split; discriminate]|].
  split; [|split; [vm_compute; reflexivity|split; [vm_compute; reflexivity|split; [vm_compute; reflexivity|vm_compute; reflexivity]]]].
  assert (V : Forall valid_op corner) by (repeat constructor; vm_compute; intuition discriminate).
  destruct (c30_empty_pf Debug) as [R S0].
  destruct (c67_history_pf Debug left_right left_right pp_empty pp_empty a_empty corner c67_left_right_pf R R S0 S0 V) as (s & t & bs & a & E & E' & S & S').
  exists a. unfold set_up_by. rewrite E, E'. split; assumption.
Qed.

(** C77: its bitboards are reflected. *)
Theorem c77_reflected_boards : forall P s t a from to p c, reachable P s -> reachable P t -> sees P s a -> sees P t (reflection a) ->
  valid_square from -> valid_square to -> valid_piece p -> let L := rules_checker P in
  reflected P (lc_normal_from_candidates L s from) (lc_normal_from_candidates L t (left_right from)) /\
  reflected P (lc_normal_to_candidates L s to p) (lc_normal_to_candidates L t (left_right to) p) /\
  reflected P (lc_drop_candidates L s p) (lc_drop_candidates L t p) /\
  reflected P (attack_set P s c) (attack_set P t c) /\
  in_check P t c = in_check P s c /\
  reflected P (destinations P s from) (destinations P t (left_right from)) /\
  reflected P (pawn_drops P s c) (pawn_drops P t c).
Proof. exact c77_reflected_boards_pf. Qed.
Print Assumptions c77_reflected_boards.
Example c77_reflected_boards_ex : let t := set_up_by (map (relabel_op left_right) corner) in
  squares_of (rules_from Debug (set_up_by corner) (square_at 1 3)) = map sq_repr [square_at 1 2; square_at 1 4; square_at 2 2; square_at 2 3] /\
  squares_of (rules_from Debug t (square_at 9 3)) = map sq_repr [square_at 8 2; square_at 8 3; square_at 9 2; square_at 9 4] /\
  squares_of (rules_drop Debug t (piece_of Pawn Black)) <> [].
Proof. repeat (split; [vm_compute; reflexivity|]). vm_compute. discriminate. Qed.

(** C77: and whole games are. *)
Theorem c77_reflected_game : forall P p0 p0' s0 t0 a0 ms, created P p0 s0 -> created P p0' t0 -> sees P s0 a0 -> sees P t0 (reflection a0) -> few_pieces a0 -> Forall valid_move ms ->
  exists p p' rs st, lc_play P (full_checker P) p0 ms = Ret (p, rs) /\ lc_play P (full_checker P) p0' (map reflect_move ms) = Ret (p', rs) /\
    moves p' = map reflect_move (moves p) /\
    lc_status (full_checker P) p = Ret st /\ lc_status (full_checker P) p' = Ret st.
Proof. exact c77_reflected_game_pf. Qed.
Print Assumptions c77_reflected_game.
Example c77_reflected_game_ex : few_pieces (abs (set_up_by hunt)) /\ created Debug (arbitrary_position (set_up_by hunt)) (set_up_by hunt) /\ created Debug (arbitrary_position (set_up_by (map (relabel_op left_right) hunt))) (set_up_by (map (relabel_op left_right) hunt)) /\ Forall valid_move (hunted ++ [rm 4 5 5 5 false]) /\
  let t := set_up_by (map (relabel_op left_right) hunt) in
  full_answers (arbitrary_position (set_up_by hunt)) (hunted ++ [rm 4 5 5 5 false]) = (repeat true 12 ++ [false], Some PSWhiteWins) /\
  full_answers (arbitrary_position t) (map reflect_move (hunted ++ [rm 4 5 5 5 false])) = (repeat true 12 ++ [false], Some PSWhiteWins).
Proof.
  split; [intros k K; cbn [In hand_kinds] in K; repeat (destruct K as [<-|K]; [vm_compute; discriminate|]); destruct K|]. split; [constructor; apply set_up_reachable, hunt_valid|]. split; [constructor; apply set_up_reachable; ops_valid|]. split; [repeat constructor; discriminate|].
  split; vm_compute; reflexivity.
Qed.
