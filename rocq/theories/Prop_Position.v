(** Property theorems C21-C30, C44, C50: positions *)
From Verif Require Import TPosition.
From Verif Require Import LSample.

(** C21: every history of safe calls runs without panic, returns the flags of the abstract game and is seen
    by the observers as the abstract position. *)
Theorem c21_history : forall P s0 a0 os,
  (s0 = pp_empty /\ a0 = a_empty) \/ (pp_startpos P = Ret s0 /\ a0 = a_opening) -> Forall valid_op os ->
  exists s, run_ops P s0 os = Ret (s, snd (a_ops a0 os)) /\ sees P s (fst (a_ops a0 os)).
Proof. exact c21_history_pf. Qed.
Print Assumptions c21_history.
Example c21_history_ex :
  (Forall valid_op edits1 /\ run_ops Debug pp_empty edits1 = Ret (pos2, flags2) /\ snd (a_ops a_empty edits1) = flags2) /\
  (Forall valid_op (map OpMove game1) /\ run_ops Release the_startpos (map OpMove game1) = Ret (pos1, flags1) /\
   snd (a_ops a_opening (map OpMove game1)) = flags1).
Proof.
  split; (split; [apply edits1_valid || apply moves_valid, game1_valid|]); split; try (vm_compute; reflexivity).
Qed.

(** C21: every reachable position is seen as an abstract position, which is unique. *)
Theorem c21_observed : forall P s, reachable P s -> exists a, sees P s a /\
  forall b, sees P s b -> a_side a = a_side b /\ a_ply a = a_ply b /\ a_last a = a_last b /\
    (forall sq, valid_square sq -> a_board a sq = a_board b sq) /\
    (forall c k, In k hand_kinds -> a_hand a c k = a_hand b c k) /\ (forall c, a_king a c = a_king b c).
Proof. exact c21_observed_pf. Qed.
Print Assumptions c21_observed.
Example c21_observed_ex : reachable Debug pos2 /\ exists a, sees Debug pos2 a /\ a_side a = White.
Proof. split; [apply pos2_reachable|]. exists (abs pos2). split; [apply sees_abs; eapply reachable_wf, (pos2_reachable Debug)|]. vm_compute. reflexivity. Qed.

(** C21: all bitboards of a reachable position say what is on the board. *)
Theorem c21_bitboards : forall P s a, reachable P s -> sees P s a ->
  (forall c, exists b, player_bitboard P s c = Ret b /\
     bb_is P b (fun sq => match a_board a sq with Some (_, d) => same_color d c | None => false end)) /\
  (forall k, exists b, piece_kind_bitboard P s k = Ret b /\
     bb_is P b (fun sq => match a_board a sq with Some (j, _) => same_kind j k | None => false end)) /\
  (forall p, valid_piece p -> exists b, piece_bitboard P s p = Ret b /\
     bb_is P b (fun sq => match a_board a sq with
                          | Some (j, d) => same_kind j (kind_of p) && same_color d (color_of p)
                          | None => false
                          end)) /\
  (exists b, occupied_bitboard s = Ret b /\
     bb_is P b (fun sq => match a_board a sq with Some _ => true | None => false end)) /\
  (exists b, vacant_bitboard s = Ret b /\
     bb_is P b (fun sq => match a_board a sq with Some _ => false | None => true end)).
Proof. exact c21_bitboards_pf. Qed.
Print Assumptions c21_bitboards.
Example c21_bitboards_ex : reachable Debug pos1 /\ sees Debug pos1 (abs pos1) /\
  (b <- player_bitboard Debug pos1 White;; x <- bb_contains Debug b (square_at 2 2);; y <- bb_contains Debug b (square_at 3 1);;
   v <- vacant_bitboard pos1;; z <- bb_contains Debug v (square_at 3 1);; n <- bb_count Debug b;; Ret (x, y, z, n)) = Ret (true, false, true, 20).
Proof. split; [apply pos1_reachable|]. split; [apply reachable_sees, pos1_reachable|]. vm_compute. reflexivity. Qed.

(** C21: the remaining observers. *)
Theorem c21_other_observers : forall P s a, reachable P s -> sees P s a ->
  (forall p, valid_piece p -> pp_hand P s p =
     Ret (if can_be_in_hand (kind_of p) then Some (a_hand a (color_of p) (kind_of p)) else None)) /\
  (forall sq, valid_square sq -> PartialPosition_piece_at P s sq =
     Ret (OptionPiece (match a_board a sq with Some x => piece_repr (the_piece x) | None => 0 end))) /\
  last_compact_move s = option_map (fun m => CompactMove (packed m)) (a_last a) /\
  PartialPosition_last_compact_move s =
    OptionCompactMove (match a_last a with Some m => packed m | None => 0 end).
Proof. exact c21_other_observers_pf. Qed.
Print Assumptions c21_other_observers.
Example c21_other_observers_ex : reachable Release pos1 /\ sees Release pos1 (abs pos1) /\ pp_hand Release pos1 (piece_of Bishop White) = Ret (Some 0) /\
  PartialPosition_piece_at Release pos1 (square_at 6 6) = Ret (OptionPiece 22) /\ a_board (abs pos1) (square_at 6 6) = Some (Bishop, White).
Proof. split; [apply pos1_reachable|]. split; [apply reachable_sees, pos1_reachable|]. repeat split; vm_compute; reflexivity. Qed.

(** C22: [make_move] always returns; it succeeds exactly for the moves that make sense. *)
Theorem c22_accepts : forall P s a m, reachable P s -> sees P s a -> valid_move m ->
  exists s' o, make_move P m s = Ret (s', o) /\ (o = Some tt <-> makes_sense a m).
Proof. exact c22_accepts_pf. Qed.
Print Assumptions c22_accepts.
Example c22_accepts_ex : reachable Debug the_startpos /\ sees Debug the_startpos (abs the_startpos) /\ valid_move (nm 7 7 7 6 false) /\ valid_move (nm 9 9 9 7 false) /\
  returns (make_move Debug (nm 7 7 7 6 false) the_startpos) (fun r => is_some (snd r)) = true /\
  returns (make_move Debug (nm 9 9 9 7 false) the_startpos) (fun r => negb (is_some (snd r))) = true.
Proof.
  split; [apply start_reachable|]. split; [apply reachable_sees, start_reachable|]. do 2 (split; [repeat split; discriminate|]). split; vm_compute; reflexivity.
Qed.

(** C23: an accepted move has exactly the effect described. *)
Theorem c23_effect : forall P s a m s', reachable P s -> sees P s a -> valid_move m ->
  make_move P m s = Ret (s', Some tt) -> exists a', sees P s' a' /\ effect a m a'.
Proof. exact c23_effect_pf. Qed.
Print Assumptions c23_effect.
Example c23_effect_ex : reachable Debug pos1 /\ sees Debug pos1 (abs pos1) /\ valid_move (nm 5 5 6 6 false) /\
  returns ('(s, o) <- make_move Debug (nm 5 5 6 6 false) pos1;; x <- piece_at Debug s (square_at 6 6);; h <- pp_hand Debug s (piece_of Bishop Black);;
    Ret (o, x, h, ply s)) (fun r => match r with (Some tt, Some (Piece 6), Some 1, 8) => true | _ => false end) = true.
Proof.
  split; [apply pos1_reachable|]. split; [apply reachable_sees, pos1_reachable|]. split; [repeat split; discriminate|]. vm_compute; reflexivity.
Qed.

(** C24: a rejected move leaves a [PartialPosition] as it was. *)
Theorem c24_partial_position : forall P s s', reachable P s ->
  (forall m, valid_move m -> make_move P m s = Ret (s', None) -> s' = s) /\
  (forall c, valid_compact c -> make_compact_move P s c = Ret (s', false) -> s' = s).
Proof. exact c24_partial_position_pf. Qed.
Print Assumptions c24_partial_position.
Example c24_partial_position_ex : reachable Debug pos1 /\ valid_move (nm 5 5 5 9 true) /\ valid_compact (CompactMove (packed (nm 5 5 5 9 true))) /\
  make_move Debug (nm 5 5 5 9 true) pos1 = Ret (pos1, None) /\
  make_compact_move Debug pos1 (CompactMove (packed (nm 5 5 5 9 true))) = Ret (pos1, false).
Proof.
  split; [apply pos1_reachable|]. split; [repeat split; discriminate|]. split; [eexists; split; [|reflexivity]; repeat split; discriminate|].
  split; vm_compute; reflexivity.
Qed.

(** C24: a rejected move leaves a [Position] as it was, including its list of moves. *)
Theorem c24_position : forall P p p', reachable P (inner p) ->
  (forall m, valid_move m -> pos_make_move P p m = Ret (p', None) -> p' = p) /\
  (forall c, valid_compact c -> pos_make_compact_move P p c = Ret (p', false) -> p' = p).
Proof. exact c24_position_pf. Qed.
Print Assumptions c24_position.
Example c24_position_ex : reachable Debug (inner (Position the_startpos pos1 game1)) /\ valid_move (nm 5 5 5 9 true) /\
  pos_make_move Debug (Position the_startpos pos1 game1) (nm 5 5 5 9 true) = Ret (Position the_startpos pos1 game1, None) /\
  pos_make_compact_move Debug (Position the_startpos pos1 game1) (CompactMove (packed (nm 5 5 5 9 true))) = Ret (Position the_startpos pos1 game1, false).
Proof. split; [apply pos1_reachable|]. split; [repeat split; discriminate|]. split; vm_compute; reflexivity. Qed.

(** C24: so does a move a [LegalityChecker] rejects. *)
Theorem c24_legality_checker : forall P L p p' m e, lc_make_move P L p m = Ret (p', RErr e) -> p' = p.
Proof. exact c24_legality_checker_pf. Qed.
Print Assumptions c24_legality_checker.
Example c24_legality_checker_ex :
  lc_make_move Debug (LegalityChecker (fun _ => Ret PSInProgress) (fun _ => Ret PSInProgress) (fun _ _ => Ret (RErr TwoPawns)) (fun _ _ => Ret false) (fun _ => Ret []) (fun _ _ => Ret bb_empty) (fun _ _ _ => Ret bb_empty) (fun _ _ => Ret bb_empty))
    (arbitrary_position pos1) (nm 5 5 6 6 false) = Ret (arbitrary_position pos1, RErr TwoPawns).
Proof. reflexivity. Qed.

(** C25: a compact move is played like the move it packs, on every position. *)
Theorem c25_compact : forall P m, valid_move m -> exists c, cm_of_move P m = Ret c /\
  (forall s, make_compact_move P s c = ('(s', o) <- make_move P m s;; Ret (s', is_some o))) /\
  (forall p, pos_make_compact_move P p c = ('(p', o) <- pos_make_move P p m;; Ret (p', is_some o))).
Proof. exact c25_compact_pf. Qed.
Print Assumptions c25_compact.
Example c25_compact_ex : valid_move (nm 5 5 6 6 false) /\ returns (c <- cm_of_move Debug (nm 5 5 6 6 false);; make_compact_move Debug pos1 c)
  (fun r => snd r && pp_eqb (fst r) (fst (try_move pos1 (nm 5 5 6 6 false)))) = true.
Proof. split; [repeat split; discriminate|]. vm_compute; reflexivity. Qed.

(** C26: turn, ply and last move after a sequence of moves, accepted or not. *)
Theorem c26_moves : forall P s ms, reachable P s -> Forall valid_move ms ->
  exists s' bs, run_ops P s (map OpMove ms) = Ret (s', bs) /\ length bs = length ms /\
    let acc := accepted_moves ms bs in
    side_to_move s' = (if Nat.even (length acc) then side_to_move s else opponent (side_to_move s)) /\
    ply s' = (ply s + N.of_nat (length acc)) mod 65536 /\
    last_move P s' = match rev acc with [] => last_move P s | m :: _ => Ret (Some m) end.
Proof. exact c26_moves_pf. Qed.
Print Assumptions c26_moves.
Example c26_moves_ex : reachable Debug the_startpos /\ Forall valid_move game1 /\ run_ops Debug the_startpos (map OpMove game1) = Ret (pos1, flags1) /\
  (side_to_move pos1, ply pos1, length (accepted_moves game1 flags1)) = (Black, 7, 6%nat) /\
  last_move Debug pos1 = Ret (Some (Drop (piece_of Bishop White) (square_at 6 6))).
Proof. split; [apply start_reachable|]. split; [apply game1_valid|]. split; [apply game1_run|]. split; vm_compute; reflexivity. Qed.

(** C26: [ply] wraps to 0 (a value [ply_set] refuses) in actual play. *)
Theorem c26_ply_wraps_in_play : forall P, exists s, played P s /\ ply s = 0.
Proof. exact c26_ply_wraps_in_play_pf. Qed.
Print Assumptions c26_ply_wraps_in_play.
Example c26_ply_wraps_in_play_ex : run_ops Debug the_startpos (map OpMove king_dance) =
  Ret (fst (do_ops the_startpos (map OpMove king_dance)), [true; true; true; true]).
Proof. vm_compute; reflexivity. Qed.

(** C27: the pieces on the board and in the hands always add up to the full set. *)
Theorem c27_conserved : forall P s a, played P s -> sees P s a ->
  (forall k, In k hand_kinds -> on_board_count a k + a_hand a Black k + a_hand a White k = full_set k) /\
  on_board_count a King = full_set King.
Proof. exact c27_conserved_pf. Qed.
Print Assumptions c27_conserved.
Example c27_conserved_ex : played Debug pos1 /\ sees Debug pos1 (abs pos1) /\
  (on_board_count (abs pos1) Bishop, a_hand (abs pos1) Black Bishop, on_board_count (abs pos1) Pawn) = (2, 0, 18).
Proof. split; [apply pos1_played|]. split; [apply reachable_sees, pos1_reachable|]. vm_compute; reflexivity. Qed.

(** C27: hence a hand never holds more than the full set, at most 18, and captures never wrap the counter. *)
Theorem c27_no_overflow : forall P s a, played P s -> sees P s a ->
  (forall c k, In k hand_kinds -> a_hand a c k <= full_set k /\ a_hand a c k <= 18) /\
  (forall from to pr s', valid_move (Normal from to pr) -> make_move P (Normal from to pr) s = Ret (s', Some tt) ->
     exists a', sees P s' a' /\
     match a_board a to with
     | Some (e, _) => a_hand a' (a_side a) (base_kind e) = a_hand a (a_side a) (base_kind e) + 1
     | None => forall c k, a_hand a' c k = a_hand a c k
     end).
Proof. exact c27_no_overflow_pf. Qed.
Print Assumptions c27_no_overflow.
Example c27_no_overflow_ex : played Debug pos1 /\ sees Debug pos1 (abs pos1) /\ valid_move (nm 5 5 6 6 false) /\
  a_board (abs pos1) (square_at 6 6) = Some (Bishop, White) /\
  returns ('(s, _) <- make_move Debug (nm 5 5 6 6 false) pos1;; pp_hand Debug s (piece_of Bishop Black))
    (fun h => match h with Some 1 => true | _ => false end) = true.
Proof.
  split; [apply pos1_played|]. split; [apply reachable_sees, pos1_reachable|]. split; [repeat split; discriminate|]. split; vm_compute; reflexivity.
Qed.

(** C28: in play each player has exactly one king, and [king_position] is its square. *)
Theorem c28_kings : forall P s a c, played P s -> sees P s a -> exists sq, valid_square sq /\
  king_position P s c = Ret (Some sq) /\ forall t, valid_square t -> (a_board a t = Some (King, c) <-> t = sq).
Proof. exact c28_kings_pf. Qed.
Print Assumptions c28_kings.
Example c28_kings_ex : let s := fst (do_ops the_startpos (map OpMove [nm 5 9 5 8 false])) in
  played Debug s /\ sees Debug s (abs s) /\ a_board (abs s) (square_at 5 8) = Some (King, Black) /\ king_position Debug s Black = Ret (Some (square_at 5 8)).
Proof.
  assert (Q : played Debug (fst (do_ops the_startpos (map OpMove [nm 5 9 5 8 false])))).
  { exists the_startpos, [nm 5 9 5 8 false], [true]. split; [apply startpos_ok|]. split; [repeat constructor; discriminate|]. vm_compute; reflexivity. }
  split; [exact Q|]. split; [apply reachable_sees, played_reachable, Q|]. split; vm_compute; reflexivity.
Qed.

(** C28: [make_move] never captures a king, in any reachable position. *)
Theorem c28_no_king_capture : forall P s a from to pr s', reachable P s -> sees P s a -> valid_move (Normal from to pr) ->
  make_move P (Normal from to pr) s = Ret (s', Some tt) -> forall c, a_board a to <> Some (King, c).
Proof. exact c28_no_king_capture_pf. Qed.
Print Assumptions c28_no_king_capture.
Example c28_no_king_capture_ex : reachable Debug pos1 /\ sees Debug pos1 (abs pos1) /\ valid_move (nm 5 5 6 6 false) /\
  returns (make_move Debug (nm 5 5 6 6 false) pos1) (fun r => is_some (snd r)) = true /\ (* a bishop is captured *)
  make_move Debug (nm 5 5 5 1 false) pos1 = Ret (pos1, None) /\ a_board (abs pos1) (square_at 5 1) = Some (King, White).
Proof.
  split; [apply pos1_reachable|]. split; [apply reachable_sees, pos1_reachable|]. split; [repeat split; discriminate|]. repeat split; vm_compute; reflexivity.
Qed.

(** C29: [king_position] is right as long as no edit removes or overwrites a king or adds a second one. What is missing:
    edits that remove a king from its square by [piece_set]; see [c29_king_position_refuted]. *)
Theorem c29_king_position_partial : forall P s0 a0 os,
  (s0 = pp_empty /\ a0 = a_empty) \/ (pp_startpos P = Ret s0 /\ a0 = a_opening) ->
  Forall valid_op os -> tidy_history a0 os ->
  exists s bs, run_ops P s0 os = Ret (s, bs) /\
    forall c sq, valid_square sq ->
      (king_position P s c = Ret (Some sq) <-> piece_at P s sq = Ret (Some (piece_of King c))).
Proof. exact c29_king_position_partial_pf. Qed.
Print Assumptions c29_king_position_partial.
Example c29_king_position_partial_ex : let os := [OpPieceSet (square_at 5 9) (Some (piece_of King Black)); OpMove (nm 5 9 4 8 false)] in
  Forall valid_op os /\ tidy_history a_empty os /\
  ('(s, _) <- run_ops Debug pp_empty os;; king_position Debug s Black) = Ret (Some (square_at 4 8)).
Proof.
  split; [repeat constructor; try (vm_compute; discriminate)|]. split; [|vm_compute; reflexivity]. repeat split; discriminate.
Qed.

(** C29: the property fails: after putting a king and removing it again (never two kings of a color on the board),
    [king_position] still names the square, which is empty. *)
Theorem c29_king_position_refuted : forall P, exists os s sq,
  Forall valid_op os /\ valid_square sq /\
  (forall n c, let a := fst (a_ops a_empty (firstn n os)) in
     forall s t, valid_square s -> valid_square t -> a_board a s = Some (King, c) -> a_board a t = Some (King, c) -> s = t) /\
  run_ops P pp_empty os = Ret (s, repeat true (length os)) /\
  king_position P s Black = Ret (Some sq) /\ piece_at P s sq = Ret None.
Proof. exact c29_king_position_refuted_pf. Qed.
Print Assumptions c29_king_position_refuted.
Example c29_king_position_refuted_ex :
  ('(s, _) <- run_ops Debug pp_empty [OpPieceSet (square_at 5 9) (Some (piece_of King Black)); OpPieceSet (square_at 5 9) None];;
   king_position Debug s Black) = Ret (Some (square_at 5 9)).
Proof. vm_compute; reflexivity. Qed.

(** C29: what [king_position] does say: the square where the last king of that color was put by [piece_set], for every
    edit of every reachable position. *)
Theorem c29_last_king_put : forall P s sq x c, reachable P s -> valid_square sq ->
  match x with Some p => valid_piece p | None => True end ->
  exists s', piece_set P s sq x = Ret s' /\
    king_position P s' c =
      match x with
      | Some p => if same_kind (kind_of p) King && same_color (color_of p) c then Ret (Some sq) else king_position P s c
      | None => king_position P s c
      end.
Proof. exact c29_last_king_put_pf. Qed.
Print Assumptions c29_last_king_put.
Example c29_last_king_put_ex : reachable Debug pos2 /\ valid_square (square_at 9 9) /\ valid_piece (piece_of King White) /\
  (s <- piece_set Debug pos2 (square_at 9 9) (Some (piece_of King White));; a <- king_position Debug s White;; b <- king_position Debug s Black;; Ret (a, b))
  = Ret (Some (square_at 9 9), Some (square_at 5 8)).
Proof. split; [apply pos2_reachable|]. split; [split; discriminate|]. split; [apply piece_of_valid|]. vm_compute; reflexivity. Qed.

(** C30: [startpos] is the opening array, [empty] has nothing. *)
Theorem c30_startpos : forall P, exists s, pp_startpos P = Ret s /\ reachable P s /\ sees P s a_opening.
Proof. exact c30_startpos_pf. Qed.
Print Assumptions c30_startpos.
Example c30_startpos_ex : (s <- pp_startpos Debug;; a <- piece_at Debug s (square_at 2 8);; b <- piece_at Debug s (square_at 5 5);; Ret (a, b))
  = Ret (Some (piece_of Rook Black), None).
Proof. vm_compute; reflexivity. Qed.

(** C30: [empty]. *)
Theorem c30_empty : forall P, reachable P pp_empty /\ sees P pp_empty a_empty.
Proof. exact c30_empty_pf. Qed.
Print Assumptions c30_empty.
Example c30_empty_ex : (o <- occupied_bitboard pp_empty;; bb_count Debug o) = Ret 0 /\ king_position Debug pp_empty White = Ret None.
Proof. split; vm_compute; reflexivity. Qed.

(** C44: in play, two positions are equal iff board, hands, side, ply and last move agree. *)
Theorem c44_played : forall P s t, played P s -> played P t ->
  (pp_eqb s t = true <->
   side_to_move s = side_to_move t /\ ply s = ply t /\ last_move P s = last_move P t /\
   (forall sq, valid_square sq -> piece_at P s sq = piece_at P t sq) /\
   (forall p, valid_piece p -> pp_hand P s p = pp_hand P t p)).
Proof. exact c44_played_pf. Qed.
Print Assumptions c44_played.
Example c44_played_ex : played Debug pos1 /\ played Debug the_startpos /\ pp_eqb pos1 the_startpos = false /\ pp_eqb pos1 pos1 = true.
Proof. split; [apply pos1_played|]. split; [apply start_played|]. split; vm_compute; reflexivity. Qed.

(** C44: for arbitrary histories, equality is agreement of all observers (including [king_position]). *)
Theorem c44_reachable : forall P s t, reachable P s -> reachable P t ->
  (pp_eqb s t = true <-> exists a, sees P s a /\ sees P t a) /\ (pp_eqb s t = true <-> s = t).
Proof. exact c44_reachable_pf. Qed.
Print Assumptions c44_reachable.
Example c44_reachable_ex : reachable Debug pos2 /\ reachable Debug pos1 /\ pp_eqb pos2 pos1 = false /\ pp_eqb pos2 pos2 = true.
Proof. split; [apply pos2_reachable|]. split; [apply pos1_reachable|]. split; vm_compute; reflexivity. Qed.

(** C50: one move on mirrored positions. *)
Theorem c50_move : forall P s t a m, reachable P s -> reachable P t -> sees P s a -> sees P t (mirror a) -> valid_move m ->
  exists s' t' o a', make_move P m s = Ret (s', o) /\ make_move P (mirror_move m) t = Ret (t', o) /\
    sees P s' a' /\ sees P t' (mirror a').
Proof. exact c50_move_pf. Qed.
Print Assumptions c50_move.
Example c50_move_ex : reachable Debug pos1 /\ reachable Debug pos1_turned /\ (exists a, sees Debug pos1 a /\ sees Debug pos1_turned (mirror a)) /\
  valid_move (nm 5 5 6 6 false) /\ mirror_move (nm 5 5 6 6 false) = nm 5 5 4 4 false /\
  returns (make_move Debug (nm 5 5 6 6 false) pos1) (fun r => is_some (snd r)) = true /\
  returns (make_move Debug (nm 5 5 4 4 false) pos1_turned) (fun r => is_some (snd r)) = true.
Proof.
  split; [apply pos1_reachable|]. split; [apply pos1_turned_reachable|]. split.
  { destruct (c50_history_pf Debug the_startpos (map OpMove game1) (or_intror (startpos_ok Debug)) (moves_valid _ game1_valid)) as (s & t & bs & a & E & E' & S & S').
    exists a. rewrite game1_run in E. injection E as <- _.
    assert (Q : run_ops Debug the_startpos (OpSide White :: map mirror_op (map OpMove game1)) = Ret (pos1_turned, true :: flags1)) by (vm_compute; reflexivity).
    rewrite Q in E'. injection E' as <- _. split; assumption. }
  split; [repeat split; discriminate|]. repeat split; vm_compute; reflexivity.
Qed.

(** C50: whole histories: the mirrored history, with White to start, is accepted alike and reaches the mirrored position. *)
Theorem c50_history : forall P s0 os, initial P s0 -> Forall valid_op os ->
  exists s t bs a, run_ops P s0 os = Ret (s, bs) /\ run_ops P s0 (OpSide White :: map mirror_op os) = Ret (t, true :: bs) /\
    sees P s a /\ sees P t (mirror a).
Proof. exact c50_history_pf. Qed.
Print Assumptions c50_history.
Example c50_history_ex : initial Debug the_startpos /\ Forall valid_op (map OpMove game1) /\
  ('(_, bs) <- run_ops Debug the_startpos (OpSide White :: map mirror_op (map OpMove game1));; Ret bs) = Ret (true :: flags1).
Proof. split; [right; apply startpos_ok|]. split; [apply moves_valid, game1_valid|]. vm_compute; reflexivity. Qed.
