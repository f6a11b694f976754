(** Property theorems C41-C43: Ord, Eq and Hash *)
From Verif Require Import TOrd.
From Verif Require Import LSample.

(** C41: [cmp] is a total order and [partial_cmp] is [Some] of it, for every type but positions and games. *)
Theorem c41_values :
  lawful_ord color_cmp color_partial_cmp /\ lawful_ord pk_cmp pk_partial_cmp /\ lawful_ord gr_cmp gr_partial_cmp /\
  lawful_ord imk_cmp imk_partial_cmp /\ lawful_ord ps_cmp ps_partial_cmp /\
  lawful_ord sq_cmp sq_partial_cmp /\ lawful_ord os_cmp os_partial_cmp /\ lawful_ord piece_cmp piece_partial_cmp /\
  lawful_ord op_cmp op_partial_cmp /\ lawful_ord cm_cmp cm_partial_cmp /\ lawful_ord ocm_cmp ocm_partial_cmp /\
  lawful_ord ogr_cmp ogr_partial_cmp /\ lawful_ord rui_cmp rui_partial_cmp /\
  lawful_ord hand_cmp hand_partial_cmp /\ lawful_ord bb_cmp bb_partial_cmp /\ lawful_ord bs_cmp bs_partial_cmp /\
  lawful_ord move_cmp move_partial_cmp.
Proof. exact c41_values_pf. Qed.
Print Assumptions c41_values.
Example c41_values_ex : move_cmp (Normal (square_at 7 7) (square_at 7 6) false) (Normal (square_at 7 7) (square_at 7 6) true) = Lt /\
  move_cmp (Drop (piece_of Pawn Black) (square_at 1 1)) (Normal (square_at 9 9) (square_at 9 8) true) = Gt /\
  hand_partial_cmp (Hand [0;1;0;0;0;0;0;0]) (Hand [0;0;7;0;0;0;0;0]) = Some Gt.
Proof. vm_compute; auto. Qed.

(** C41: the same for [PartialPosition], [Position], [PartialGame] and [Game]. *)
Theorem c41_positions :
  lawful_ord pp_cmp pp_partial_cmp /\ lawful_ord pos_cmp pos_partial_cmp /\
  lawful_ord (game_cmp pp_cmp) (game_partial_cmp pp_cmp) /\ lawful_ord (game_cmp pos_cmp) (game_partial_cmp pos_cmp).
Proof. exact c41_positions_pf. Qed.
Print Assumptions c41_positions.
Example c41_positions_ex : pp_cmp the_startpos pos1 = Lt /\ pp_cmp pos1 the_startpos = Gt /\ pp_partial_cmp pos1 pos1 = Some Eq.
Proof. vm_compute; auto. Qed.

(** C42: [cmp] says Equal exactly if [==] holds, and [==] is identity, for every type but positions and games. *)
Theorem c42_values :
  (ord_agrees any color_cmp color_eqb /\ is_equality any color_eqb) /\
  (ord_agrees any pk_cmp pk_eqb /\ is_equality any pk_eqb) /\
  (ord_agrees any gr_cmp gr_eqb /\ is_equality any gr_eqb) /\
  (ord_agrees any imk_cmp imk_eqb /\ is_equality any imk_eqb) /\
  (ord_agrees any ps_cmp ps_eqb /\ is_equality any ps_eqb) /\
  (ord_agrees any sq_cmp sq_eqb /\ is_equality any sq_eqb) /\
  (ord_agrees any os_cmp os_eqb /\ is_equality any os_eqb) /\
  (ord_agrees any piece_cmp piece_eqb /\ is_equality any piece_eqb) /\
  (ord_agrees any op_cmp op_eqb /\ is_equality any op_eqb) /\
  (ord_agrees any cm_cmp cm_eqb /\ is_equality any cm_eqb) /\
  (ord_agrees any ocm_cmp ocm_eqb /\ is_equality any ocm_eqb) /\
  (ord_agrees any ogr_cmp ogr_eqb /\ is_equality any ogr_eqb) /\
  (ord_agrees any rui_cmp rui_eqb /\ is_equality any rui_eqb) /\
  (ord_agrees valid_hand hand_cmp hand_eqb /\ is_equality valid_hand hand_eqb) /\
  (ord_agrees any bb_cmp bb_eqb /\ is_equality any bb_eqb) /\
  (ord_agrees any bs_cmp bs_eqb /\ is_equality any bs_eqb) /\
  (ord_agrees any move_cmp move_eqb /\ is_equality any move_eqb).
Proof. exact c42_values_pf. Qed.
Print Assumptions c42_values.
Example c42_values_ex : sq_cmp (square_at 2 3) (square_at 2 3) = Eq /\ sq_cmp (square_at 2 3) (square_at 3 2) = Lt /\
  bb_eqb (Bitboard 5 6) (Bitboard 5 6) = true /\ move_eqb (Drop (piece_of Pawn Black) (square_at 5 5)) (Drop (piece_of Pawn White) (square_at 5 5)) = false.
Proof. vm_compute; auto. Qed.

(** C42: the exact law for positions: [==] holds exactly if [cmp] says Equal and the king positions agree.
    Full statement: [forall P, ord_agrees (reachable P) pp_cmp pp_eqb]. *)
Theorem c42_positions_partial : forall P s t, reachable P s -> reachable P t ->
  (pp_eqb s t = true <-> pp_cmp s t = Eq /\ forall c, king_position P s c = king_position P t c) /\
  (pp_eqb s t = true <-> s = t).
Proof. exact c42_positions_partial_pf. Qed.
Print Assumptions c42_positions_partial.
Example c42_positions_partial_ex : reachable Debug pp_empty /\ reachable Debug ghost_pos /\
  king_position Debug pp_empty Black = Ret None /\ king_position Debug ghost_pos Black = Ret (Some (square_at 5 5)) /\
  pp_cmp pp_empty ghost_pos = Eq /\ pp_eqb pp_empty ghost_pos = false.
Proof. split; [exists pp_empty, [], []; split; [now left|split; auto]|]. split; [apply ghost_reachable|]. vm_compute; auto. Qed.

(** C42: in play (positions reached from the starting position by moves) [Ord] and [Eq] agree.
    Full statement: [forall P, ord_agrees (reachable P) pp_cmp pp_eqb], and the same for [Position] and the games. *)
Theorem c42_in_play_partial : forall P,
  ord_agrees (played P) pp_cmp pp_eqb /\
  ord_agrees (fun p => played P (initial_position p) /\ played P (inner p)) pos_cmp pos_eqb /\
  ord_agrees (fun g => played P (game_position g)) (game_cmp pp_cmp) (game_eqb pp_eqb) /\
  ord_agrees (fun g => played P (initial_position (game_position g)) /\ played P (inner (game_position g))) (game_cmp pos_cmp) (game_eqb pos_eqb).
Proof. exact c42_in_play_partial_pf. Qed.
Print Assumptions c42_in_play_partial.
Example c42_in_play_partial_ex : played Debug the_startpos /\ played Debug pos1 /\ pp_cmp pos1 pos1 = Eq /\ pp_cmp the_startpos pos1 = Lt.
Proof. split; [apply start_played|]. split; [apply pos1_played|]. vm_compute; auto. Qed.

(** C42 is false for positions and games: [king_square] takes part in [==] but not in [cmp].
    Full statement: [forall P, ord_agrees (reachable P) pp_cmp pp_eqb], and the same for [Position] and the games. *)
Theorem c42_positions_refuted : forall P, exists s t, reachable P s /\ reachable P t /\
  (pp_cmp s t = Eq /\ pp_eqb s t = false) /\
  (pos_cmp (arbitrary_position s) (arbitrary_position t) = Eq /\ pos_eqb (arbitrary_position s) (arbitrary_position t) = false) /\
  (forall r, game_cmp pp_cmp (GameOf s r) (GameOf t r) = Eq /\ game_eqb pp_eqb (GameOf s r) (GameOf t r) = false) /\
  (forall r, game_cmp pos_cmp (GameOf (arbitrary_position s) r) (GameOf (arbitrary_position t) r) = Eq /\
             game_eqb pos_eqb (GameOf (arbitrary_position s) r) (GameOf (arbitrary_position t) r) = false).
Proof. exact c42_positions_refuted_pf. Qed.
Print Assumptions c42_positions_refuted.
Example c42_positions_refuted_ex :
  (s <- run_ops Debug pp_empty [OpPieceSet (square_at 5 5) (Some (piece_of King Black)); OpPieceSet (square_at 5 5) None];;
   Ret (pp_cmp pp_empty (fst s), pp_eqb pp_empty (fst s))) = Ret (Eq, false).
Proof. vm_compute; reflexivity. Qed.

(** C43: equal values feed the same data to the hasher, for every type but positions and games. *)
Theorem c43_values :
  hash_agrees any color_eqb color_hash /\ hash_agrees any pk_eqb pk_hash /\ hash_agrees any gr_eqb gr_hash /\
  hash_agrees any imk_eqb imk_hash /\ hash_agrees any ps_eqb ps_hash /\ hash_agrees any sq_eqb sq_hash /\ hash_agrees any os_eqb os_hash /\
  hash_agrees any piece_eqb piece_hash /\ hash_agrees any op_eqb op_hash /\ hash_agrees any cm_eqb cm_hash /\ hash_agrees any ocm_eqb ocm_hash /\
  hash_agrees any ogr_eqb ogr_hash /\ hash_agrees any rui_eqb rui_hash /\ hash_agrees valid_hand hand_eqb hand_hash /\
  hash_agrees any bb_eqb bb_hash /\ hash_agrees any bs_eqb bs_hash /\ hash_agrees any move_eqb move_hash.
Proof. exact c43_values_pf. Qed.
Print Assumptions c43_values.
Example c43_values_ex : move_hash (Normal (square_at 7 7) (square_at 7 6) true) = [HDisc 0; HInt 8 61; HInt 8 60; HInt 8 1] /\
  hand_hash (Hand [0;2;0;0;0;0;0;1]) = [HLen 8; HSlice 8 [0;2;0;0;0;0;0;1]].
Proof. vm_compute; auto. Qed.

(** C43: the same for positions and games, with any history. *)
Theorem c43_positions : forall P,
  hash_agrees (reachable P) pp_eqb pp_hash /\
  hash_agrees (fun p => reachable P (initial_position p) /\ reachable P (inner p)) pos_eqb pos_hash /\
  hash_agrees (fun g => reachable P (game_position g)) (game_eqb pp_eqb) (game_hash pp_hash) /\
  hash_agrees (fun g => reachable P (initial_position (game_position g)) /\ reachable P (inner (game_position g))) (game_eqb pos_eqb) (game_hash pos_hash).
Proof. exact c43_positions_pf. Qed.
Print Assumptions c43_positions.
Example c43_positions_ex : reachable Debug pos1 /\ pp_eqb pos1 pos1 = true /\ length (pp_hash pos1) = 90%nat /\ hd_error (pp_hash pos1) = Some (HDisc 1).
Proof. split; [apply played_reachable, pos1_played|]. vm_compute; auto. Qed.
