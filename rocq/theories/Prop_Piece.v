(** Property theorems C05-C07: pieces, promotion, C-compatible option types *)
From Verif Require Import TPiece.

(** C05: [to_parts] inverts [Piece::new], and so do [piece_kind] and [color]. *)
Theorem c05_new_to_parts : forall P k c,
  exists p, piece_new P k c = Ret p /\ valid_piece p /\ piece_to_parts p = Ret (k, c) /\
            piece_piece_kind p = Ret k /\ piece_color p = Ret c.
Proof. exact c05_new_to_parts_pf. Qed.
Print Assumptions c05_new_to_parts.
Example c05_new_to_parts_ex : piece_new Debug ProRook White = Ret (Piece 30) /\ piece_to_parts (Piece 30) = Ret (ProRook, White).
Proof. split; vm_compute; reflexivity. Qed.

(** C05: [Piece::new] inverts [to_parts]: every piece is a (kind, color) pair, and only one. *)
Theorem c05_to_parts_new : forall P p, valid_piece p ->
  exists k c, piece_to_parts p = Ret (k, c) /\ piece_new P k c = Ret p /\
    forall k' c', piece_new P k' c' = Ret p -> k' = k /\ c' = c.
Proof. exact c05_to_parts_new_pf. Qed.
Print Assumptions c05_to_parts_new.
Example c05_to_parts_new_ex : valid_piece (Piece 24) /\ piece_to_parts (Piece 24) = Ret (King, White).
Proof. split; [right; simpl; lia|vm_compute; reflexivity]. Qed.

(** C05: [as_u8] is 1..=14 for Black and 17..=30 for White, in the order of kinds, hence injective;
    [from_u8_unchecked] inverts it. *)
Theorem c05_as_u8 : forall P k c,
  exists p, piece_new P k c = Ret p /\
    piece_as_u8 p = pk_as_u8 k + (match c with Black => 0 | White => 16 end) /\
    (match c with Black => 1 <= piece_as_u8 p <= 14 | White => 17 <= piece_as_u8 p <= 30 end) /\
    piece_from_u8_unchecked (piece_as_u8 p) = Ret p.
Proof. exact c05_as_u8_pf. Qed.
Print Assumptions c05_as_u8.
Example c05_as_u8_ex : (p <- piece_new Release Gold White;; Ret (piece_as_u8 p)) = Ret 21.
Proof. vm_compute; reflexivity. Qed.

(** C05: [as_u8] and [==] identify the piece. *)
Theorem c05_as_u8_injective : forall p q, valid_piece p -> valid_piece q ->
  (piece_as_u8 p = piece_as_u8 q <-> p = q) /\ (piece_eqb p q = true <-> p = q) /\
  (p = q <-> piece_to_parts p = piece_to_parts q).
Proof. exact c05_as_u8_injective_pf. Qed.
Print Assumptions c05_as_u8_injective.
Example c05_as_u8_injective_ex : valid_piece (Piece 1) /\ valid_piece (Piece 17) /\ piece_eqb (Piece 1) (Piece 17) = false.
Proof. split; [left; simpl; lia|]. split; [right; simpl; lia|vm_compute; reflexivity]. Qed.

(** C05: [Piece::all] lists the 28 pieces, each exactly once. *)
Theorem c05_all_pieces : forall P, exists l, piece_all P = Ret l /\ NoDup l /\ length l = 28%nat /\
  forall p, In p l <-> valid_piece p.
Proof. exact c05_all_pieces_pf. Qed.
Print Assumptions c05_all_pieces.
Example c05_all_pieces_ex : match piece_all Debug with Ret l => nth_error l 27 | _ => None end = Some (Piece 30).
Proof. vm_compute; reflexivity. Qed.

(** C05: [array_index] is below [NUM] and injective. *)
Theorem c05_array_index : forall P p, valid_piece p ->
  exists i, piece_array_index P p = Ret i /\ i < PIECE_NUM /\
    forall q, valid_piece q -> piece_array_index P q = Ret i -> q = p.
Proof. exact c05_array_index_pf. Qed.
Print Assumptions c05_array_index.
Example c05_array_index_ex : valid_piece (Piece 30) /\ piece_array_index Debug (Piece 30) = Ret 29.
Proof. split; [right; simpl; lia|vm_compute; reflexivity]. Qed.

(** C06: promotion of kinds is the promotion of shogi, and [unpromote] is its inverse. *)
Theorem c06_kind_promotion : forall k l,
  (pk_promote k = Some l <-> promotes_to k l) /\ (pk_unpromote l = Some k <-> promotes_to k l).
Proof. exact c06_kind_promotion_pf. Qed.
Print Assumptions c06_kind_promotion.
Example c06_kind_promotion_ex : promotes_to Silver ProSilver /\ pk_promote Silver = Some ProSilver /\ pk_promote Gold = None.
Proof. repeat split; constructor. Qed.

(** C06: exactly six kinds promote; a promoted kind does not promote again, and an unpromoted one does not unpromote. *)
Theorem c06_promotable_kinds : forall k,
  (pk_promote k <> None <-> In k [Pawn; Lance; Knight; Silver; Bishop; Rook]) /\
  (pk_unpromote k <> None <-> In k [ProPawn; ProLance; ProKnight; ProSilver; ProBishop; ProRook]).
Proof. exact c06_promotable_kinds_pf. Qed.
Print Assumptions c06_promotable_kinds.
Example c06_promotable_kinds_ex : In Rook [Pawn; Lance; Knight; Silver; Bishop; Rook] /\ pk_promote Rook <> None /\ pk_promote King = None.
Proof. simpl; repeat split; auto 10; discriminate. Qed.

(** C06: promotion of pieces acts on the kind and keeps the color. *)
Theorem c06_piece_promotion : forall P k c,
  exists p, piece_new P k c = Ret p /\
    (forall l, promotes_to k l ->
       exists q, piece_new P l c = Ret q /\ piece_promote P p = Ret (Some q) /\ piece_unpromote P q = Ret (Some p)) /\
    ((forall l, ~ promotes_to k l) -> piece_promote P p = Ret None) /\
    ((forall l, ~ promotes_to l k) -> piece_unpromote P p = Ret None).
Proof. exact c06_piece_promotion_pf. Qed.
Print Assumptions c06_piece_promotion.
Example c06_piece_promotion_ex : piece_promote Debug (Piece 22) = Ret (Some (Piece 29)) /\ piece_unpromote Debug (Piece 29) = Ret (Some (Piece 22)).
Proof. split; vm_compute; reflexivity. Qed.

(** C05: [option_array_index] of kinds is a bijection onto 0..[OPTION_NUM], and [array_index] one onto 0..[NUM]. *)
Theorem c05_option_array_index :
  (forall o, pk_option_array_index o < PIECE_KIND_OPTION_NUM) /\
  (forall o o', pk_option_array_index o = pk_option_array_index o' -> o = o') /\
  (forall n, n < PIECE_KIND_OPTION_NUM -> exists o, pk_option_array_index o = n) /\
  pk_option_array_index None = 0 /\
  (forall P k, pk_array_index P k = Ret (pk_option_array_index (Some k) - 1) /\ pk_option_array_index (Some k) - 1 < PIECE_KIND_NUM) /\
  (forall n, n < PIECE_KIND_NUM -> exists k, forall P, pk_array_index P k = Ret n).
Proof. exact c05_option_array_index_pf. Qed.
Print Assumptions c05_option_array_index.
Example c05_option_array_index_ex : pk_option_array_index (Some ProRook) = 14 /\ 14 < PIECE_KIND_OPTION_NUM /\ pk_array_index Debug ProRook = Ret 13.
Proof. repeat split. Qed.

(** C05: the C constructor. *)
Theorem c05_c_new : forall P k c, exists p, Piece_new P k c = Ret p /\ valid_piece p /\
  piece_to_parts p = Ret (k, c) /\ piece_piece_kind p = Ret k /\ piece_color p = Ret c.
Proof. exact c05_c_new_pf. Qed.
Print Assumptions c05_c_new.
Example c05_c_new_ex : (p <- Piece_new Debug ProPawn White;; Ret (piece_as_u8 p)) = Ret 25.
Proof. reflexivity. Qed.

(** C06: the C functions on kinds: the number of the promoted (unpromoted) kind, 0 if there is none. *)
Theorem c06_c_kind : forall k,
  (forall l, promotes_to k l -> opk_repr (PieceKind_promote k) = pk_as_u8 l /\ opk_into (PieceKind_promote k) = Ret (Some l)) /\
  (forall l, promotes_to l k -> opk_repr (PieceKind_unpromote k) = pk_as_u8 l /\ opk_into (PieceKind_unpromote k) = Ret (Some l)) /\
  ((forall l, ~ promotes_to k l) -> opk_repr (PieceKind_promote k) = 0) /\
  ((forall l, ~ promotes_to l k) -> opk_repr (PieceKind_unpromote k) = 0).
Proof. exact c06_c_kind_pf. Qed.
Print Assumptions c06_c_kind.
Example c06_c_kind_ex : promotes_to Silver ProSilver /\ opk_repr (PieceKind_promote Silver) = 12 /\
  opk_repr (PieceKind_unpromote ProSilver) = 4 /\ opk_repr (PieceKind_promote Gold) = 0 /\ opk_repr (PieceKind_unpromote Silver) = 0.
Proof. repeat split; constructor. Qed.

(** C06: the C functions on pieces. *)
Theorem c06_c_piece : forall P k c p, piece_new P k c = Ret p ->
  (forall l, promotes_to k l -> exists q, piece_new P l c = Ret q /\
     Piece_promote P p = Ret (op_from (Some q)) /\ Piece_unpromote P q = Ret (op_from (Some p))) /\
  ((forall l, ~ promotes_to k l) -> exists o, Piece_promote P p = Ret o /\ op_repr o = 0) /\
  ((forall l, ~ promotes_to l k) -> exists o, Piece_unpromote P p = Ret o /\ op_repr o = 0).
Proof. exact c06_c_piece_pf. Qed.
Print Assumptions c06_c_piece.
Example c06_c_piece_ex : (p <- piece_new Debug Lance White;; Piece_promote Debug p) = Ret (OptionPiece 26) /\
  (p <- piece_new Debug ProLance White;; Piece_unpromote Debug p) = Ret (OptionPiece 18) /\
  (p <- piece_new Debug King White;; Piece_promote Debug p) = Ret (OptionPiece 0).
Proof. vm_compute. auto. Qed.

(** C07: [OptionPiece] and [OptionPieceKind]. *)
Theorem c07_option_piece_round_trip : forall o : option piece,
  (forall p, o = Some p -> valid_piece p) ->
  op_into (op_from o) = o /\ (op_repr (op_from o) = 0 <-> o = None) /\
  (forall o', (forall p, o' = Some p -> valid_piece p) -> op_repr (op_from o') = op_repr (op_from o) -> o' = o).
Proof. exact c07_option_piece_round_trip_pf. Qed.
Print Assumptions c07_option_piece_round_trip.
Example c07_option_piece_round_trip_ex :
  (forall p, Some (Piece 30) = Some p -> valid_piece p) /\ op_from (Some (Piece 30)) = OptionPiece 30.
Proof. split; [intros p [= <-]; right; simpl; lia|vm_compute; reflexivity]. Qed.

(** C07: [OptionPieceKind]; [PieceKind::from_u8] accepts exactly 1..=14. *)
Theorem c07_option_piece_kind : forall (o o' : option piece_kind) v,
  opk_into (opk_from o) = Ret o /\ (opk_repr (opk_from o) = 0 <-> o = None) /\
  (opk_repr (opk_from o) = opk_repr (opk_from o') -> o = o') /\
  (1 <= v <= 14 -> exists k, pk_from_u8 v = Ret (Some k) /\ pk_as_u8 k = v /\
                             PieceKind_from_u8 v = Ret (opk_from (Some k))) /\
  (~ (1 <= v <= 14) -> pk_from_u8 v = Ret None /\ PieceKind_from_u8 v = Ret (opk_from None)).
Proof. exact c07_option_piece_kind_pf. Qed.
Print Assumptions c07_option_piece_kind.
Example c07_option_piece_kind_ex : pk_from_u8 14 = Ret (Some ProRook) /\ pk_from_u8 15 = Ret None /\ pk_from_u8 0 = Ret None.
Proof. repeat split; vm_compute; reflexivity. Qed.

(** C07: [OptionCompactMove]. *)
Theorem c07_option_compact_move_round_trip : forall o : option compact_move,
  (forall c, o = Some c -> valid_compact c) ->
  ocm_into (ocm_from o) = o /\ (ocm_repr (ocm_from o) = 0 <-> o = None) /\
  (forall o', (forall c, o' = Some c -> valid_compact c) -> ocm_repr (ocm_from o') = ocm_repr (ocm_from o) -> o' = o).
Proof. exact c07_option_compact_move_round_trip_pf. Qed.
Print Assumptions c07_option_compact_move_round_trip.
Example c07_option_compact_move_round_trip_ex :
  valid_compact (CompactMove 20801) /\ ocm_into (ocm_from (Some (CompactMove 20801))) = Some (CompactMove 20801).
Proof.
  split; [|vm_compute; reflexivity]. exists (Normal (Square 81) (Square 65) false).
  split; [unfold valid_move, valid_square; simpl; lia|vm_compute; reflexivity].
Qed.

(** C07: [OptionGameResolution]; the default is [None]. *)
Theorem c07_option_game_resolution_round_trip : forall o o' : option game_resolution,
  ogr_into (ogr_from o) = Ret o /\ (ogr_repr (ogr_from o) = 0 <-> o = None) /\
  (ogr_repr (ogr_from o) = ogr_repr (ogr_from o') -> o = o') /\ ogr_into ogr_default = Ret None.
Proof. exact c07_option_game_resolution_round_trip_pf. Qed.
Print Assumptions c07_option_game_resolution_round_trip.
Example c07_option_game_resolution_round_trip_ex : ogr_from (Some Aborted) = OptionGameResolution 5 /\ ogr_into (OptionGameResolution 5) = Ret (Some Aborted).
Proof. split; vm_compute; reflexivity. Qed.

(** C07: [ResultUnitIllegalMoveKind], through [Option] and through [Result]; [IllegalMoveKind::from_u8] accepts exactly 1..=7. *)
Theorem c07_result_illegal_move_kind : forall (r r' : result illegal_move_kind) (o o' : option illegal_move_kind) v,
  rui_into_result (rui_from_result r) = Ret r /\ (rui_repr (rui_from_result r) = 0 <-> r = ROk) /\
  (rui_repr (rui_from_result r) = rui_repr (rui_from_result r') -> r = r') /\
  rui_into_option (rui_from_option o) = Ret o /\ (rui_repr (rui_from_option o) = 0 <-> o = None) /\
  (rui_repr (rui_from_option o) = rui_repr (rui_from_option o') -> o = o') /\
  rui_into_result rui_default = Ret ROk /\
  (1 <= v <= 7 -> exists k, imk_from_u8 v = Ret (Some k) /\ imk_as_u8 k = v) /\
  (~ (1 <= v <= 7) -> imk_from_u8 v = Ret None).
Proof. exact c07_result_illegal_move_kind_pf. Qed.
Print Assumptions c07_result_illegal_move_kind.
Example c07_result_illegal_move_kind_ex : rui_into_result (ResultUnitIMK 6) = Ret (RErr GameFinished) /\ imk_from_u8 8 = Ret None.
Proof. split; vm_compute; reflexivity. Qed.
