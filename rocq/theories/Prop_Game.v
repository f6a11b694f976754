(** Property theorems C31-C32: Position and Game *)
From Verif Require Import TGame.
From Verif Require Import LSample.

(** C31: playing on a [Position]: the initial position stays, the moves are the accepted ones, in order, the inner position
    is the one the same calls produce on a [PartialPosition], and replaying the recorded moves reproduces it with every move
    accepted. *)
Theorem c31_replay : forall P p0 s0 xs, created P p0 s0 -> Forall valid_call xs ->
  exists p bs, pos_run P p0 xs = Ret (p, bs) /\
    initial_position p = s0 /\
    moves p = accepted_moves (map call_move xs) bs /\
    run_ops P s0 (map (fun x => OpMove (call_move x)) xs) = Ret (inner p, bs) /\
    run_ops P (initial_position p) (map OpMove (moves p)) = Ret (inner p, repeat true (length (moves p))).
Proof. exact c31_replay_pf. Qed.
Print Assumptions c31_replay.
Example c31_replay_ex : created Debug (arbitrary_position pos2) pos2 /\
  ('(p, bs) <- pos_run Debug (arbitrary_position pos2) [PMove (nm 1 1 5 1 false); PCompact (CompactMove (packed (nm 5 8 4 8 false)))];;
   Ret (moves p, bs)) = Ret ([], [false; false]) /\
  ('(p, bs) <- pos_run Debug (arbitrary_position the_startpos) (map PMove game1);;
   Ret (inner p, length (moves p), bs)) = Ret (pos1, 6%nat, flags1).
Proof. split; [apply created_arbitrary, pos2_reachable|]. split; vm_compute; reflexivity. Qed.

(** C31: [startpos], [default] and [arbitrary_position] all start with no moves on the given position. *)
Theorem c31_created : forall P s0, reachable P s0 ->
  created P (arbitrary_position s0) s0 /\
  inner (arbitrary_position s0) = s0 /\ initial_position (arbitrary_position s0) = s0 /\ moves (arbitrary_position s0) = [] /\
  exists s, pp_startpos P = Ret s /\ pos_startpos P = Ret (arbitrary_position s) /\ pos_default P = Ret (arbitrary_position s).
Proof. exact c31_created_pf. Qed.
Print Assumptions c31_created.
Example c31_created_ex : reachable Debug pos2 /\ moves (arbitrary_position pos2) = [].
Proof. split; [apply pos2_reachable|reflexivity]. Qed.

(** C31: every observer of [Position] is the observer of [inner()]. *)
Theorem c31_observers : forall P p,
  pos_side_to_move p = side_to_move (inner p) /\
  pos_ply p = ply (inner p) /\
  (forall c, pos_hand_of_a_player P p c = hand_of_a_player P (inner p) c) /\
  (forall x, pos_hand P p x = pp_hand P (inner p) x) /\
  (forall sq, pos_piece_at P p sq = piece_at P (inner p) sq) /\
  pos_occupied_bitboard p = occupied_bitboard (inner p) /\
  pos_vacant_bitboard p = vacant_bitboard (inner p) /\
  (forall c, pos_player_bitboard P p c = player_bitboard P (inner p) c) /\
  (forall x, pos_piece_bitboard P p x = piece_bitboard P (inner p) x) /\
  pos_last_move P p = last_move P (inner p) /\
  pos_last_compact_move p = last_compact_move (inner p) /\
  pos_to_sfen_owned P p = to_sfen_owned P (inner p).
Proof. exact c31_observers_pf. Qed.
Print Assumptions c31_observers.
Example c31_observers_ex : pos_ply (Position the_startpos pos1 []) = 7.
Proof. vm_compute; reflexivity. Qed.

(** C31, boundary of the property: the deprecated editing methods of [Position] break it. After
    [Position::piece_set] the recorded history no longer leads to [inner()]. *)
Theorem c31_deprecated_edit_breaks_replay : forall P, exists p0 p,
  pos_startpos P = Ret p0 /\ pos_piece_set P p0 (square_at 5 5) (Some (piece_of Pawn Black)) = Ret p /\
  exists s bs, run_ops P (initial_position p) (map OpMove (moves p)) = Ret (s, bs) /\
    piece_at P s (square_at 5 5) = Ret None /\ pos_piece_at P p (square_at 5 5) = Ret (Some (piece_of Pawn Black)).
Proof. exact c31_deprecated_edit_breaks_replay_pf. Qed.
Print Assumptions c31_deprecated_edit_breaks_replay.
Example c31_deprecated_edit_breaks_replay_ex :
  (p <- pos_startpos Debug;; p <- pos_piece_set Debug p (square_at 5 5) (Some (piece_of Pawn Black));; Ret (pp_eqb (inner p) (initial_position p), moves p))
  = Ret (false, []).
Proof. vm_compute; reflexivity. Qed.

(** C32: the resolution is the last value set, and the position is never touched. *)
Theorem c32_resolution : forall A (g : game_of A) xs,
  game_position (game_run g xs) = game_position g /\
  game_resolution_of (game_run g xs) =
    match rev xs with
    | [] => game_resolution_of g
    | GResolve r :: _ => Ret (Some r)
    | GUnresolve :: _ => Ret None
    end.
Proof. exact c32_resolution_pf. Qed.
Print Assumptions c32_resolution.
Example c32_resolution_ex : game_resolution_of (game_run (GameOf 0 ogr_default) [GResolve Draw; GUnresolve; GResolve WhiteWins]) = Ret (Some WhiteWins).
Proof. reflexivity. Qed.

(** C32: new games are unresolved and at the starting position. *)
Theorem c32_default : forall P, exists s, pp_startpos P = Ret s /\
  (exists g, game_default P = Ret g /\ game_position g = arbitrary_position s /\ game_resolution_of g = Ret None) /\
  (exists g, partial_game_default P = Ret g /\ game_position g = s /\ game_resolution_of g = Ret None).
Proof. exact c32_default_pf. Qed.
Print Assumptions c32_default.
Example c32_default_ex : (g <- partial_game_default Debug;; game_resolution_of (game_resolve g Aborted)) = Ret (Some Aborted).
Proof. vm_compute; reflexivity. Qed.

(** C32: the C getter: 0 if unresolved, the number of the resolution otherwise. *)
Theorem c32_c_resolution : forall A (g : game_of A) r,
  ogr_repr (Game_resolution (game_unresolve g)) = 0 /\
  ogr_repr (Game_resolution (game_resolve g r)) = gr_as_u8 r /\ gr_as_u8 r <> 0 /\
  (forall r', gr_as_u8 r' = gr_as_u8 r -> r' = r).
Proof. exact c32_c_resolution_pf. Qed.
Print Assumptions c32_c_resolution.
Example c32_c_resolution_ex : Game_resolution (game_resolve (GameOf tt (ogr_from (Some Draw))) Aborted) = ogr_from (Some Aborted) /\
  ogr_repr (ogr_from (Some Aborted)) = 5.
Proof. repeat split. Qed.

(** C31: the deprecated editing methods of [Position] edit the inner position and nothing else. *)
Theorem c31_deprecated_edits : forall P p, reachable P (inner p) ->
  (forall sq x, valid_op (OpPieceSet sq x) -> exists p' s,
     pos_piece_set P p sq x = Ret p' /\ run_ops P (inner p) [OpPieceSet sq x] = Ret (s, [true]) /\
     inner p' = s /\ initial_position p' = initial_position p /\ moves p' = moves p) /\
  (forall c h, valid_hand h -> exists p' s,
     pos_hand_store P p c h = Ret p' /\ run_ops P (inner p) [OpHand c h] = Ret (s, [true]) /\
     inner p' = s /\ initial_position p' = initial_position p /\ moves p' = moves p).
Proof. exact c31_deprecated_edits_pf. Qed.
Print Assumptions c31_deprecated_edits.
Example c31_deprecated_edits_ex : reachable Debug pos1 /\ valid_hand (Hand [18; 0; 0; 0; 0; 0; 2; 0]) /\
  (p <- pos_hand_store Debug (Position the_startpos pos1 game1) White (Hand [18; 0; 0; 0; 0; 0; 2; 0]);;
   h <- pos_hand Debug p (piece_of Rook White);; Ret (h, length (moves p))) = Ret (Some 2, 9%nat).
Proof. split; [apply pos1_reachable|]. split; [split; [reflexivity|]; split; [repeat constructor|reflexivity]|]. vm_compute. reflexivity. Qed.
