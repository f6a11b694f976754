(** Property theorems C67-C69: laws of positions *)
From Verif Require Import TLaws.
From Verif Require Import TPosition LSample.

(** C67: the calls which change a position do not know where the squares are: after any permutation of the 81 squares, every
    history is accepted alike and reaches the permuted position. *)
Theorem c67_history : forall P f g s t a os, permutes f g -> reachable P s -> reachable P t ->
  sees P s a -> sees P t (relabel f g a) -> Forall valid_op os ->
  exists s' t' bs a', run_ops P s os = Ret (s', bs) /\ run_ops P t (map (relabel_op f) os) = Ret (t', bs) /\
    sees P s' a' /\ sees P t' (relabel f g a').
Proof. exact c67_history_pf. Qed.
Print Assumptions c67_history.
Example c67_history_ex : sees Debug pp_empty a_empty /\ sees Debug pp_empty (relabel left_right left_right a_empty) /\
  permutes left_right left_right /\ reachable Debug pp_empty /\ Forall valid_op edits1 /\
  relabel_op left_right (OpMove (nm 7 7 7 6 false)) = OpMove (nm 3 7 3 6 false) /\
  ('(_, bs) <- run_ops Debug pp_empty (map (relabel_op left_right) edits1);; Ret bs) = Ret flags2.
Proof.
  split; [apply c30_empty_pf|]. split; [apply c30_empty_pf|].
  split; [exact c67_left_right_pf|]. split; [apply c30_empty_pf|]. split; [apply edits1_valid|]. split; vm_compute; reflexivity.
Qed.

(** C67: so it is for histories from the empty board. *)
Theorem c67_from_empty : forall P f g os, permutes f g -> Forall valid_op os ->
  exists s t bs a, run_ops P pp_empty os = Ret (s, bs) /\ run_ops P pp_empty (map (relabel_op f) os) = Ret (t, bs) /\
    sees P s a /\ sees P t (relabel f g a).
Proof. exact c67_from_empty_pf. Qed.
Print Assumptions c67_from_empty.
Example c67_from_empty_ex : permutes left_right left_right /\ Forall valid_op edits1 /\
  ('(t, _) <- run_ops Release pp_empty (map (relabel_op left_right) edits1);; to_sfen_owned Release t) =
    Ret (bytes "R8/9/9/9/9/9/9/4K4/9 w R 1") /\
  ('(t, _) <- run_ops Release pp_empty edits1;; to_sfen_owned Release t) = Ret (bytes "8R/9/9/9/9/9/9/4K4/9 w R 1").
Proof.
  split; [exact c67_left_right_pf|]. split; [apply edits1_valid|].
  split; vm_compute; reflexivity.
Qed.

(** C67: the left-right reflection is such a permutation. *)
Theorem c67_left_right : permutes left_right left_right.
Proof. exact c67_left_right_pf. Qed.
Print Assumptions c67_left_right.
Example c67_left_right_ex : left_right (square_at 2 8) = square_at 8 8 /\ left_right (square_at 5 9) = square_at 5 9.
Proof. split; reflexivity. Qed.

(** C68: edits which touch different parts of a position can be made in either order: same flags, same position. *)
Theorem c68_commute : forall P s o1 o2, reachable P s -> valid_op o1 -> valid_op o2 -> independent o1 o2 ->
  exists t b1 b2, run_ops P s [o1; o2] = Ret (t, [b1; b2]) /\ run_ops P s [o2; o1] = Ret (t, [b2; b1]).
Proof. exact c68_commute_pf. Qed.
Print Assumptions c68_commute.
Example c68_commute_ex : reachable Debug pos2 /\
  let o1 := OpPieceSet (square_at 1 1) (Some (piece_of King White)) in
  let o2 := OpPieceSet (square_at 9 9) (Some (piece_of King Black)) in
  independent o1 o2 /\ valid_op o1 /\ valid_op o2 /\
  ('(t, _) <- run_ops Debug pos2 [o1; o2];; to_sfen_owned Debug t) = ('(t, _) <- run_ops Debug pos2 [o2; o1];; to_sfen_owned Debug t).
Proof.
  split; [apply pos2_reachable|].
  cbv zeta. repeat split; try (simpl; lia); try discriminate; try (right; right; discriminate);
    try (apply piece_of_valid); vm_compute; reflexivity.
Qed.

(** C68: an edit makes an earlier edit of the same thing pointless, unless that one put a king which the later one does not
    replace by a king of its color. *)
Theorem c68_overwrite : forall P s o1 o2, reachable P s -> valid_op o1 -> valid_op o2 -> overwrites o2 o1 ->
  exists t b, run_ops P s [o1; o2] = Ret (t, [b; true]) /\ run_ops P s [o2] = Ret (t, [true]).
Proof. exact c68_overwrite_pf. Qed.
Print Assumptions c68_overwrite.
Example c68_overwrite_ex : reachable Debug pos2 /\ valid_op (OpPly 7) /\ valid_op (OpPieceSet (square_at 1 1) (Some (piece_of Gold White))) /\
  overwrites (OpPly 7) (OpPly 0) /\
  overwrites (OpPieceSet (square_at 1 1) None) (OpPieceSet (square_at 1 1) (Some (piece_of Gold White))) /\
  ~ overwrites (OpPieceSet (square_at 1 1) None) (OpPieceSet (square_at 1 1) (Some (piece_of King White))).
Proof.
  split; [apply pos2_reachable|]. split; [reflexivity|]. split; [split; [split; discriminate|apply piece_of_valid]|].
  split; [discriminate|]. split; [split; [reflexivity|left; reflexivity]|].
  intros [_ [H|H]]; vm_compute in H; discriminate.
Qed.

(** C68: a move and an edit it does not see can be made in either order: the move is accepted before iff it is accepted after,
    and the position is the same. *)
Theorem c68_move : forall P s a m o, reachable P s -> sees P s a -> valid_move m -> valid_op o -> unseen a m o ->
  exists t b, run_ops P s [OpMove m; o] = Ret (t, [b; true]) /\ run_ops P s [o; OpMove m] = Ret (t, [true; b]).
Proof. exact c68_move_pf. Qed.
Print Assumptions c68_move.
Example c68_move_ex : valid_move (nm 7 6 7 5 false) /\ valid_op (OpPieceSet (square_at 5 8) (Some (piece_of King Black))) /\
  reachable Debug pos1 /\ sees Debug pos1 (abs pos1) /\
  let m := nm 7 6 7 5 false in let o := OpPieceSet (square_at 5 8) (Some (piece_of King Black)) in
  unseen (abs pos1) m o /\ unseen (abs pos1) m (OpHand White (Hand [1; 0; 0; 0; 0; 0; 0; 0])) /\
  ('(t, bs) <- run_ops Debug pos1 [OpMove m; o];; x <- to_sfen_owned Debug t;; Ret (x, bs)) =
  ('(t, bs) <- run_ops Debug pos1 [o; OpMove m];; x <- to_sfen_owned Debug t;; Ret (x, bs)).
Proof.
  split; [repeat split; discriminate|]. split; [split; [split; discriminate|apply piece_of_valid]|].
  split; [apply pos1_reachable|]. split; [apply sees_abs; eapply reachable_wf, (pos1_reachable Debug)|]. cbv zeta.
  split; [|split; [|vm_compute; reflexivity]].
  - split; [|right; vm_compute; discriminate]. vm_compute. intros [H|[H|[]]]; discriminate.
  - cbn [unseen]. vm_compute. discriminate.
Qed.

(** C68: the condition on kings is needed: two kings of one color, put on different squares, leave [king_position] at the last
    one. *)
Theorem c68_kings : forall P c, exists t u, 
  run_ops P pp_empty [OpPieceSet (square_at 1 1) (Some (piece_of King c)); OpPieceSet (square_at 9 9) (Some (piece_of King c))] =
    Ret (t, [true; true]) /\
  run_ops P pp_empty [OpPieceSet (square_at 9 9) (Some (piece_of King c)); OpPieceSet (square_at 1 1) (Some (piece_of King c))] =
    Ret (u, [true; true]) /\
  king_position P t c = Ret (Some (square_at 9 9)) /\ king_position P u c = Ret (Some (square_at 1 1)) /\
  (forall sq, valid_square sq -> piece_at P t sq = piece_at P u sq).
Proof. exact c68_kings_pf. Qed.
Print Assumptions c68_kings.
Example c68_kings_ex : ~ independent (OpPieceSet (square_at 1 1) (Some (piece_of King Black))) (OpPieceSet (square_at 9 9) (Some (piece_of King Black))).
Proof. intros [_ [H|[H|H]]]; vm_compute in H; try discriminate; now apply H. Qed.

(** C69: in every position the bitboards count up: the players' pieces and the vacant squares make 81, the fourteen kinds make
    the occupied squares, the two colours of a kind make the kind, the fourteen kinds of a player make the player. *)
Theorem c69_counts : forall P s, reachable P s -> exists player kind each occupied vacant,
  (forall c, counts P (player_bitboard P s c) (player c)) /\
  (forall k, counts P (piece_kind_bitboard P s k) (kind k)) /\
  (forall k c, counts P (piece_bitboard P s (piece_of k c)) (each k c)) /\
  counts P (occupied_bitboard s) occupied /\ counts P (vacant_bitboard s) vacant /\
  occupied + vacant = 81 /\ player Black + player White = occupied /\ sum (map kind all_kinds) = occupied /\
  (forall k, each k Black + each k White = kind k) /\ (forall c, sum (map (fun k => each k c) all_kinds) = player c).
Proof. exact c69_counts_pf. Qed.
Print Assumptions c69_counts.
Example c69_counts_ex : reachable Debug pos1 /\ counts Debug (occupied_bitboard pos1) 40 /\ counts Debug (vacant_bitboard pos1) 41 /\
  counts Debug (player_bitboard Debug pos1 Black) 20 /\ counts Debug (piece_kind_bitboard Debug pos1 Pawn) 18 /\
  counts Debug (piece_bitboard Debug pos1 (piece_of Bishop White)) 1.
Proof. split; [apply pos1_reachable|]. repeat split; vm_compute; reflexivity. Qed.

(** C69: in play there are forty pieces: the occupied squares and the two hands; each player has one king on the board and at
    most 38 pieces in all hands; and of each kind (promoted or not) the board and the hands have the full set. *)
Theorem c69_play : forall P s a, played P s -> sees P s a -> exists kind occupied,
  (forall k, counts P (piece_kind_bitboard P s k) (kind k)) /\ counts P (occupied_bitboard s) occupied /\
  occupied + sum (map (a_hand a Black) hand_kinds) + sum (map (a_hand a White) hand_kinds) = 40 /\ 2 <= occupied /\
  (forall c, counts P (piece_bitboard P s (piece_of King c)) 1) /\
  (forall k, In k hand_kinds ->
     kind k + match promoted k with Some l => kind l | None => 0 end + a_hand a Black k + a_hand a White k = full_set k).
Proof. exact c69_play_pf. Qed.
Print Assumptions c69_play.
Example c69_play_ex : played Debug pos1 /\ sees Debug pos1 (abs pos1) /\
  counts Debug (piece_bitboard Debug pos1 (piece_of King Black)) 1 /\ counts Debug (piece_kind_bitboard Debug pos1 Bishop) 2.
Proof.
  split; [apply pos1_played|]. split; [apply sees_abs; eapply reachable_wf, (pos1_reachable Debug)|]. split; vm_compute; reflexivity.
Qed.
