(** The texts of the derived [Debug] implementations. *)
From Verif Require Import TDebug.
From Verif Require Import LSample SpecDebug MDebug SpecSfen SpecBoard.

(** C76: the small values print their variant's name, or the type's name with the number in parentheses (on a line of its own with ["{:#?}"]);
    every sink is offered exactly that. *)
Theorem c76_values : forall b,
  (forall c, debug_prints (fmt_debug b (color_debug c)) (color_name c)) /\
  (forall k, debug_prints (fmt_debug b (pk_debug k)) (kind_name k)) /\
  (forall r, debug_prints (fmt_debug b (gr_debug r)) (resolution_name r)) /\
  (forall k, debug_prints (fmt_debug b (imk_debug k)) (illegal_name k)) /\
  (forall s, debug_prints (fmt_debug b (ps_debug s)) (status_name s)) /\
  (forall s, word64 (sq_repr s) -> debug_prints (fmt_debug b (sq_debug s)) (square_dtext b s)) /\
  (forall s, word64 (os_repr s) -> debug_prints (fmt_debug b (os_debug s)) (osquare_dtext b s)) /\
  (forall p, word64 (piece_repr p) -> debug_prints (fmt_debug b (piece_debug p)) (piece_dtext b p)) /\
  (forall p, word64 (op_repr p) -> debug_prints (fmt_debug b (op_debug p)) (opiece_dtext b p)) /\
  (forall m, word64 (cm_repr m) -> debug_prints (fmt_debug b (cm_debug m)) (compact_dtext b m)) /\
  (forall m, word64 (ocm_repr m) -> debug_prints (fmt_debug b (ocm_debug m)) (ocompact_dtext b m)) /\
  (forall r, word64 (rui_repr r) -> debug_prints (fmt_debug b (rui_debug r)) (result_dtext b r)) /\
  (forall r, word64 (ogr_repr r) -> debug_prints (fmt_debug b (ogr_debug r)) (oresolution_dtext b r)).
Proof. exact c76_values_pf. Qed.
Print Assumptions c76_values.
Example c76_values_ex : formatted (fmt_debug false (sq_debug (square_at 7 7))) = Ret (bytes "Square(61)") /\
  formatted (fmt_debug true (sq_debug (square_at 7 7))) = Ret (bytes "Square(" ++ [10] ++ bytes "    61," ++ [10] ++ bytes ")") /\
  formatted (fmt_debug true (pk_debug ProSilver)) = Ret (bytes "ProSilver").
Proof. vm_compute. repeat split. Qed.

(** C76: hands, bitboards, moves, positions and games print the name of the type with all fields, in the order of their declaration. *)
Theorem c76_structures : forall b,
  (forall h, Forall word64 (hand_bytes h) -> debug_prints (fmt_debug b (hand_debug h)) (hand_dtext b h)) /\
  (forall x, word64 (bb0 x) -> word64 (bb1 x) -> debug_prints (fmt_debug b (bb_debug x)) (bitboard_dtext b x)) /\
  (forall x, word64 (bs0 x) -> word64 (bs1 x) -> debug_prints (fmt_debug b (bs_debug x)) (swapped_dtext b x)) /\
  (forall m, move_sized m -> debug_prints (fmt_debug b (move_debug m)) (move_dtext b m)) /\
  (forall s, partial_sized s -> debug_prints (fmt_debug b (pp_debug s)) (partial_dtext b s)) /\
  (forall p, position_sized p -> debug_prints (fmt_debug b (pos_debug p)) (position_dtext b p)) /\
  (forall g, position_sized (g_inner g) -> word64 (ogr_repr (g_resolution g)) -> debug_prints (fmt_debug b (game_debug g)) (game_dtext b g)) /\
  (forall g, partial_sized (g_inner g) -> word64 (ogr_repr (g_resolution g)) ->
     debug_prints (fmt_debug b (partial_game_debug g)) (partial_game_dtext b g)) /\
  (forall P s, reachable P s -> partial_sized s).
Proof. exact c76_structures_pf. Qed.
Print Assumptions c76_structures.
Example c76_structures_ex :
  formatted (fmt_debug false (move_debug (Normal (square_at 7 7) (square_at 7 6) false))) = Ret (bytes "Normal { from: Square(61), to: Square(60), promote: false }") /\
  formatted (fmt_debug false (hand_debug hand_new)) = Ret (bytes "Hand([0, 0, 0, 0, 0, 0, 0, 0])") /\
  partial_sized the_startpos /\ match formatted (fmt_debug true (pp_debug the_startpos)) with
    | Ret t => N.of_nat (length t) = 6219 /\ firstn 35 t = bytes "PartialPosition {" ++ [10] ++ bytes "    side: Black," ++ [10]
    | _ => False end.
Proof.
  split; [vm_compute; reflexivity|]. split; [vm_compute; reflexivity|]. split; [|vm_compute; split; reflexivity].
  apply (proj2 (proj2 (proj2 (proj2 (proj2 (proj2 (proj2 (proj2 (c76_structures true)))))))) Debug). apply played_reachable, start_played.
Qed.

(** C76: the text tells apart exactly what the derived [==] tells apart: small values. *)
Theorem c76_tells_values : forall b,
  tells (fun _ => True) color_eqb (fun c => fmt_debug b (color_debug c)) /\
  tells (fun _ => True) pk_eqb (fun c => fmt_debug b (pk_debug c)) /\
  tells (fun _ => True) gr_eqb (fun c => fmt_debug b (gr_debug c)) /\
  tells (fun _ => True) imk_eqb (fun c => fmt_debug b (imk_debug c)) /\
  tells (fun _ => True) ps_eqb (fun c => fmt_debug b (ps_debug c)) /\
  tells (fun s => word64 (sq_repr s)) sq_eqb (fun s => fmt_debug b (sq_debug s)) /\
  tells (fun s => word64 (os_repr s)) os_eqb (fun s => fmt_debug b (os_debug s)) /\
  tells (fun p => word64 (piece_repr p)) piece_eqb (fun p => fmt_debug b (piece_debug p)) /\
  tells (fun p => word64 (op_repr p)) op_eqb (fun p => fmt_debug b (op_debug p)) /\
  tells (fun m => word64 (cm_repr m)) cm_eqb (fun m => fmt_debug b (cm_debug m)) /\
  tells (fun m => word64 (ocm_repr m)) ocm_eqb (fun m => fmt_debug b (ocm_debug m)) /\
  tells (fun r => word64 (rui_repr r)) rui_eqb (fun r => fmt_debug b (rui_debug r)) /\
  tells (fun r => word64 (ogr_repr r)) ogr_eqb (fun r => fmt_debug b (ogr_debug r)).
Proof. exact c76_tells_values_pf. Qed.
Print Assumptions c76_tells_values.
Example c76_tells_values_ex : word64 (sq_repr (square_at 7 7)) /\ word64 (sq_repr (square_at 7 6)) /\
  formatted (fmt_debug false (sq_debug (square_at 7 6))) = Ret (bytes "Square(60)") /\ sq_eqb (square_at 7 7) (square_at 7 6) = false.
Proof. vm_compute. repeat split. Qed.

(** C76: ... and hands, bitboards, moves, and all that a client can have of positions and games. *)
Theorem c76_tells_structures : forall b P,
  tells valid_hand hand_eqb (fun h => fmt_debug b (hand_debug h)) /\
  tells (fun x => u64_pair (bb0 x) (bb1 x)) bb_eqb (fun x => fmt_debug b (bb_debug x)) /\
  tells (fun x => u64_pair (bs0 x) (bs1 x)) bs_eqb (fun x => fmt_debug b (bs_debug x)) /\
  tells move_sized move_eqb (fun m => fmt_debug b (move_debug m)) /\
  tells (reachable P) pp_eqb (fun s => fmt_debug b (pp_debug s)) /\
  tells (fun p => reachable P (initial_position p) /\ reachable P (inner p) /\ Forall valid_move (moves p)) pos_eqb (fun p => fmt_debug b (pos_debug p)) /\
  tells (fun g => let p := g_inner g in reachable P (initial_position p) /\ reachable P (inner p) /\ Forall valid_move (moves p) /\ ogr_repr (g_resolution g) < 256)
    (game_eqb pos_eqb) (fun g => fmt_debug b (game_debug g)) /\
  tells (fun g => reachable P (g_inner g) /\ ogr_repr (g_resolution g) < 256) (game_eqb pp_eqb) (fun g => fmt_debug b (partial_game_debug g)).
Proof. exact c76_tells_structures_pf. Qed.
Print Assumptions c76_tells_structures.
Example c76_tells_structures_ex : reachable Debug pos1 /\ reachable Debug the_startpos /\ pp_eqb pos1 the_startpos = false /\
  match formatted (fmt_debug false (pp_debug pos1)), formatted (fmt_debug false (pp_debug the_startpos)) with
  | Ret t, Ret u => firstn 31 t = firstn 31 u /\ N.of_nat (length t) = 1979 /\ N.of_nat (length u) = 1967
  | _, _ => False end.
Proof. split; [apply pos1_reachable|]. split; [apply played_reachable, start_played|]. vm_compute. repeat split. Qed.

(** C76: ["{:?}"] and ["{:#?}"] differ in blanks, line ends and the comma before a closing bracket only. *)
Theorem c76_formats :
  same_gist (fun s => word64 (sq_repr s)) (fun b s => fmt_debug b (sq_debug s)) /\
  same_gist (fun p => word64 (piece_repr p)) (fun b p => fmt_debug b (piece_debug p)) /\
  same_gist (fun h => Forall word64 (hand_bytes h)) (fun b h => fmt_debug b (hand_debug h)) /\
  same_gist (fun x => u64_pair (bb0 x) (bb1 x)) (fun b x => fmt_debug b (bb_debug x)) /\
  same_gist move_sized (fun b m => fmt_debug b (move_debug m)) /\
  same_gist partial_sized (fun b s => fmt_debug b (pp_debug s)) /\
  same_gist position_sized (fun b p => fmt_debug b (pos_debug p)) /\
  same_gist (fun g => position_sized (g_inner g) /\ word64 (ogr_repr (g_resolution g))) (fun b g => fmt_debug b (game_debug g)) /\
  same_gist (fun g => partial_sized (g_inner g) /\ word64 (ogr_repr (g_resolution g))) (fun b g => fmt_debug b (partial_game_debug g)).
Proof. exact c76_formats_pf. Qed.
Print Assumptions c76_formats.
Example c76_formats_ex : match formatted (fmt_debug true (bb_debug (Bitboard 5 6))), formatted (fmt_debug false (bb_debug (Bitboard 5 6))) with
  | Ret t, Ret u => t = bytes "Bitboard(" ++ [10] ++ bytes "    [" ++ [10] ++ bytes "        5," ++ [10] ++ bytes "        6," ++ [10] ++ bytes "    ]," ++ [10] ++ bytes ")" /\
                    u = bytes "Bitboard([5, 6])" /\ gist t = bytes "Bitboard([5,6])" /\ gist u = bytes "Bitboard([5,6])"
  | _, _ => False end.
Proof. vm_compute. repeat split. Qed.
