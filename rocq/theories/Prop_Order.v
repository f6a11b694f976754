(** Property theorems C54-C55: the order of values, what hashes distinguish *)
From Verif Require Import TOrder.
From Verif Require Import LSample.

(** C54: the order of colors, kinds, resolutions, illegal moves, statuses, squares, pieces, moves, compact moves, hands and
    bitboards. *)
Theorem c54_values : forall P,
  ordered_by any color_cmp k_color /\ ordered_by any pk_cmp k_kind /\ ordered_by any gr_cmp k_resolution /\
  ordered_by any imk_cmp k_illegal /\ ordered_by any ps_cmp k_status /\
  ordered_by valid_square sq_cmp k_square /\ ordered_by valid_piece piece_cmp k_piece /\
  ordered_by valid_move move_cmp k_move /\ ordered_by valid_compact cm_cmp (fun c => k_compact (unpack c)) /\
  ordered_by valid_hand hand_cmp k_hand /\ ordered_by valid_bb bb_cmp (k_bitboard P).
Proof. exact c54_values_pf. Qed.
Print Assumptions c54_values.
(** a promotion is a larger compact move than a move of a piece with a larger number, but not a larger move *)
Example c54_values_ex :
  move_cmp (nm 1 2 1 1 true) (nm 9 9 9 8 false) = Lt /\
  cm_cmp (CompactMove (packed (nm 1 2 1 1 true))) (CompactMove (packed (nm 9 9 9 8 false))) = Gt /\
  before (k_square (square_at 1 9)) (k_square (square_at 2 1)) /\ sq_cmp (square_at 1 9) (square_at 2 1) = Lt /\
  bb_cmp (Bitboard 1 0) (Bitboard 0 3) = Gt /\ hand_cmp (Hand [0;1;0;0;0;0;0;0]) (Hand [0;0;7;0;0;0;0;0]) = Gt.
Proof.
  split; [reflexivity|]. split; [reflexivity|]. split; [|vm_compute; auto].
  exists []. right. exists 1, [9], 2, [1]. split; [reflexivity|]. split; [reflexivity|]. reflexivity.
Qed.

(** C54: options come before everything else when [None]; byte-swapped bitboards have their own order. *)
Theorem c54_options : forall P,
  ordered_by (valid_o valid_square) (fun a b => os_cmp (os_from a) (os_from b)) (k_option 2 k_square) /\
  ordered_by (valid_o valid_piece) (fun a b => op_cmp (op_from a) (op_from b)) (k_option 2 k_piece) /\
  ordered_by (valid_o valid_compact) (fun a b => ocm_cmp (ocm_from a) (ocm_from b)) (k_option 2 (fun c => k_compact (unpack c))) /\
  ordered_by any (fun a b => ogr_cmp (ogr_from a) (ogr_from b)) (k_option 1 k_resolution) /\
  ordered_by any (fun a b => rui_cmp (rui_from_option a) (rui_from_option b)) (k_option 1 k_illegal) /\
  ordered_by valid_bb (fun a b => bs_cmp (bb_swap_bytes a) (bb_swap_bytes b)) (k_swapped P).
Proof. exact c54_options_pf. Qed.
Print Assumptions c54_options.
Example c54_options_ex : os_cmp (os_from None) (os_from (Some (square_at 1 1))) = Lt /\
  ocm_cmp (ocm_from (Some (CompactMove (packed (nm 7 7 7 6 false))))) (ocm_from None) = Gt /\
  bs_cmp (bb_swap_bytes (Bitboard (2 ^ 62) 0)) (bb_swap_bytes (Bitboard 1 0)) = Lt /\ bb_cmp (Bitboard (2 ^ 62) 0) (Bitboard 1 0) = Gt.
Proof. vm_compute; auto. Qed.

(** C54: the order of positions and games, told from what they show. *)
Theorem c54_positions : forall P,
  ordered_by (shown P) (on_fst pp_cmp) k_shown /\
  ordered_by (shown_pos P) (on_fst pos_cmp) k_pos /\
  ordered_by (shown_game (shown P)) (on_fst (game_cmp pp_cmp)) (k_game k_shown) /\
  ordered_by (shown_game (shown_pos P)) (on_fst (game_cmp pos_cmp)) (k_game k_pos).
Proof. exact c54_positions_pf. Qed.
Print Assumptions c54_positions.
Example c54_positions_ex : forall P, (exists a, shown P (pos1, a)) /\ (exists a, shown P (the_startpos, a)) /\ pp_cmp the_startpos pos1 = Lt /\
  pos_cmp (arbitrary_position the_startpos) (arbitrary_position pos1) = Lt /\
  (exists a, shown_game (shown P) (GameOf pos1 (ogr_from (Some Draw)), a)) /\
  game_cmp pp_cmp (GameOf pos1 (ogr_from (Some Draw))) (GameOf pos1 (ogr_from None)) = Gt.
Proof.
  intros P. assert (A : shown P (pos1, abs pos1)) by (split; [apply pos1_reachable|apply sees_abs, (reachable_wf P), pos1_reachable]).
  split; [eauto|]. split.
  { exists (abs the_startpos). assert (R : reachable P the_startpos) by (apply played_reachable, start_played). split; [exact R|apply sees_abs, (reachable_wf P), R]. }
  split; [now vm_compute|]. split; [now vm_compute|]. split; [|now vm_compute]. exists (abs pos1, Some Draw). split; [exact A|reflexivity].
Qed.

(** C55: what is hashed tells small values apart, whatever is hashed after them. *)
Theorem c55_values : forall P,
  hash_tells any color_hash k_color /\ hash_tells any pk_hash k_kind /\ hash_tells any gr_hash k_resolution /\
  hash_tells any imk_hash k_illegal /\ hash_tells any ps_hash k_status /\
  hash_tells valid_square sq_hash k_square /\ hash_tells valid_piece piece_hash k_piece /\
  hash_tells valid_move move_hash k_move /\ hash_tells valid_compact cm_hash (fun c => k_compact (unpack c)) /\
  hash_tells valid_hand hand_hash k_hand /\ hash_tells valid_bb bb_hash (k_bitboard P).
Proof. exact c55_values_pf. Qed.
Print Assumptions c55_values.
Example c55_values_ex : move_hash (Drop (piece_of Pawn Black) (square_at 5 5)) <> move_hash (Drop (piece_of Pawn White) (square_at 5 5)) /\
  hand_hash (Hand [1;0;0;0;0;0;0;0]) <> hand_hash (Hand [0;1;0;0;0;0;0;0]) /\ sq_hash (square_at 1 2) <> sq_hash (square_at 2 1).
Proof. repeat split; intros H; vm_compute in H; discriminate H. Qed.

(** C55: the same for options and byte-swapped bitboards. *)
Theorem c55_options : forall P,
  hash_tells (valid_o valid_square) (fun a => os_hash (os_from a)) (k_option 2 k_square) /\
  hash_tells (valid_o valid_piece) (fun a => op_hash (op_from a)) (k_option 2 k_piece) /\
  hash_tells (valid_o valid_compact) (fun a => ocm_hash (ocm_from a)) (k_option 2 (fun c => k_compact (unpack c))) /\
  hash_tells any (fun a => ogr_hash (ogr_from a)) (k_option 1 k_resolution) /\
  hash_tells any (fun a => rui_hash (rui_from_option a)) (k_option 1 k_illegal) /\
  hash_tells valid_bb (fun b => bs_hash (bb_swap_bytes b)) (k_swapped P).
Proof. exact c55_options_pf. Qed.
Print Assumptions c55_options.
Example c55_options_ex : op_hash (op_from None) <> op_hash (op_from (Some (piece_of Pawn Black))) /\
  bs_hash (bb_swap_bytes (Bitboard 1 0)) <> bs_hash (bb_swap_bytes (Bitboard 0 1)).
Proof. split; intros H; vm_compute in H; discriminate H. Qed.

(** C55: what is hashed tells everything a position or game shows but the king positions, and nothing else. *)
Theorem c55_positions : forall P,
  hash_tells (shown P) (fun x => pp_hash (fst x)) k_shown /\
  hash_tells (shown_pos P) (fun x => pos_hash (fst x)) k_pos /\
  hash_tells (shown_game (shown P)) (fun x => game_hash pp_hash (fst x)) (k_game k_shown) /\
  hash_tells (shown_game (shown_pos P)) (fun x => game_hash pos_hash (fst x)) (k_game k_pos).
Proof. exact c55_positions_pf. Qed.
Print Assumptions c55_positions.
Example c55_positions_ex : forall P, (exists a, shown P (pos1, a)) /\ (exists a, shown P (pos2, a)) /\ pp_hash pos1 <> pp_hash pos2.
Proof.
  intros P. split; [exists (abs pos1); split; [apply pos1_reachable|apply sees_abs, (reachable_wf P), pos1_reachable]|].
  split; [exists (abs pos2); split; [apply pos2_reachable|apply sees_abs, (reachable_wf P), pos2_reachable]|].
  intros H. apply (f_equal (fun l => nth 1 l (HLen 0))) in H. vm_compute in H. discriminate H.
Qed.

(** C55: positions with the same hashed data show the same side, ply, pieces, hands and last move; histories with the same
    hashed data are the same. *)
Theorem c55_same : forall P s t a b, reachable P s -> reachable P t -> sees P s a -> sees P t b ->
  (pp_hash s = pp_hash t <->
   a_side a = a_side b /\ a_ply a = a_ply b /\ (forall sq, valid_square sq -> a_board a sq = a_board b sq) /\
   (forall c k, In k hand_kinds -> a_hand a c k = a_hand b c k) /\ a_last a = a_last b) /\
  (forall ms ns, hash_list move_hash ms = hash_list move_hash ns <-> ms = ns).
Proof. exact c55_same_pf. Qed.
Print Assumptions c55_same.
(** the king positions are not hashed (compare C42) *)
Example c55_same_ex : reachable Debug pp_empty /\ reachable Debug ghost_pos /\ pp_hash pp_empty = pp_hash ghost_pos /\
  king_position Debug pp_empty Black = Ret None /\ king_position Debug ghost_pos Black = Ret (Some (square_at 5 5)).
Proof. split; [exists pp_empty, [], []; split; [now left|split; auto]|]. split; [apply ghost_reachable|]. vm_compute; auto. Qed.
