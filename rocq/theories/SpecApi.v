(** The public interface of shogi_core as a table of typed functions, and executions of programs
    that use it. A program can hold literals of the primitive types and of the public fieldless
    enums; every other value comes from a call. *)
From Verif Require Import Machine MColor MPieceKind MPiece MSquare MMove MHand MBitboard MResolution MPosition MOrdHash SpecBase SpecBoard SpecPos.

(** ** Types of the interface *)
Inductive ty :=
| TUnit | TBool | TU8 | TU16 | TU128 | TUsize | TI8
| TColor | TKind | TGr | TImk
| TOKind | TPiece | TOPiece | TSquare | TOSquare | TMove | TCompact | TOCompact | THand
| TBB | TBS | TOgr | TRui | TResult
| TPP | TPosition | TGame | TPGame
| TText | TOrdering | THash | TWrites
| TOpt (t : ty) | TPair (t u : ty) | TList (t : ty).

Fixpoint den (t : ty) : Type :=
  match t with
  | TUnit => unit | TBool => bool | TU8 | TU16 | TU128 | TUsize => N | TI8 => Z
  | TColor => color | TKind => piece_kind | TGr => game_resolution | TImk => illegal_move_kind
  | TOKind => option_piece_kind | TPiece => piece | TOPiece => option_piece
  | TSquare => square | TOSquare => option_square
  | TMove => move | TCompact => compact_move | TOCompact => option_compact_move | THand => hand
  | TBB => bitboard | TBS => byte_swapped
  | TOgr => option_game_resolution | TRui => result_unit_imk | TResult => result illegal_move_kind
  | TPP => partial_position | TPosition => position | TGame => game | TPGame => partial_game
  | TText => list N | TOrdering => comparison | THash => list htok | TWrites => list (N * N)
  | TOpt t => option (den t) | TPair t u => (den t * den u)%type | TList t => list (den t)
  end.
Fixpoint dens (ts : list ty) : Type :=
  match ts with [] => unit | t :: ts => (den t * dens ts)%type end.

(** ** One function: name, argument and result types, documented safety condition of an [unsafe]
    function ([true] for a safe one), behaviour. A [&mut] argument appears both as an argument and
    as a component of the result.

    The flag given to the safety condition says which bitboards count as valid: [false] for the
    documented representation only, [true] if bit 63 of the first word may also be set. *)
Record api := Api {
  a_name : string;
  a_args : list ty;
  a_ret : ty;
  a_pre : bool -> dens a_args -> bool;
  a_fun : profile -> dens a_args -> res (den a_ret)
}.

Definition fn0 name r (f : profile -> res (den r)) : api :=
  Api name [] r (fun _ _ => true) (fun P _ => f P).
Definition fn1 name t r (f : profile -> den t -> res (den r)) : api :=
  Api name [t] r (fun _ _ => true) (fun P x => f P (fst x)).
Definition fn2 name t u r (f : profile -> den t -> den u -> res (den r)) : api :=
  Api name [t; u] r (fun _ _ => true) (fun P x => f P (fst x) (fst (snd x))).
Definition fn3 name t u v r (f : profile -> den t -> den u -> den v -> res (den r)) : api :=
  Api name [t; u; v] r (fun _ _ => true) (fun P x => f P (fst x) (fst (snd x)) (fst (snd (snd x)))).
Definition un1 name t r (p : bool -> den t -> bool) (f : profile -> den t -> res (den r)) : api :=
  Api name [t] r (fun l x => p l (fst x)) (fun P x => f P (fst x)).
Definition un2 name t u r (p : bool -> den t -> den u -> bool) (f : profile -> den t -> den u -> res (den r)) : api :=
  Api name [t; u] r (fun l x => p l (fst x) (fst (snd x))) (fun P x => f P (fst x) (fst (snd x))).

(** bitboard.rs:194-204: [a] represents a bitboard: 63 + 18 squares *)
Definition bitboard_words (lax : bool) (w0 w1 : N) : bool :=
  (w0 <? 2 ^ (if lax then 64 else 63)) && (w1 <? 2 ^ 18).
Definition u128_of_bitboard (lax : bool) (a : N) : bool := bitboard_words lax (a mod 2 ^ 64) (a / 2 ^ 64).
(** bitboard.rs:543-557: [a] represents a byte-swapped bitboard *)
Definition u128_of_swapped (lax : bool) (a : N) : bool :=
  bitboard_words lax (swap_bytes64 (a / 2 ^ 64)) (swap_bytes64 (a mod 2 ^ 64)).
(** [shift_right] keeps the documented representation unless it shifts by 0 with square 8a
    occupied, or by 1 with square 9a occupied. *)
Definition shift_right_clean (b : bitboard) (delta : N) : bool :=
  negb ((delta =? 0) && N.testbit (bb1 b) 0) && negb ((delta =? 1) && N.testbit (bb1 b) 9).

Arguments fn0 name%string_scope r f.
Arguments fn1 name%string_scope t r f.
Arguments fn2 name%string_scope t u r f.
Arguments fn3 name%string_scope t u v r f.
Arguments un1 name%string_scope t r p f.
Arguments un2 name%string_scope t u r p f.

(** color.rs *)
Definition api_color : list api := [
  fn1 "Color::flip" TColor TColor (fun _ a => color_flip a);
  fn1 "Color::array_index" TColor TUsize color_array_index;
  fn0 "Color::all" (TList TColor) (fun _ => Ret color_all);
  fn1 "Color: ToUsi::to_usi_owned" TColor TText (fun P a => to_usi_owned P (color_to_usi string_sink a));
  fn2 "Color: PartialEq::eq" TColor TColor TBool (fun _ a b => Ret (color_eqb a b));
  fn2 "Color: Ord::cmp" TColor TColor TOrdering (fun _ a b => Ret (color_cmp a b));
  fn2 "Color: PartialOrd::partial_cmp" TColor TColor (TOpt TOrdering) (fun _ a b => Ret (color_partial_cmp a b));
  fn1 "Color: Hash::hash" TColor THash (fun _ a => Ret (color_hash a))
].

(** piece_kind.rs *)
Definition api_piece_kind : list api := [
  fn1 "PieceKind::promote" TKind (TOpt TKind) (fun _ a => Ret (pk_promote a));
  fn1 "PieceKind::unpromote" TKind (TOpt TKind) (fun _ a => Ret (pk_unpromote a));
  fn1 "PieceKind::from_u8" TU8 (TOpt TKind) (fun _ a => pk_from_u8 a);
  fn1 "PieceKind_from_u8" TU8 TOKind (fun _ a => PieceKind_from_u8 a);
  un1 "PieceKind::from_u8_unchecked" TU8 TKind (fun _ a => in_range 1 14 a) (fun _ a => pk_from_u8_unchecked a);
  fn1 "PieceKind_promote" TKind TOKind (fun _ a => Ret (PieceKind_promote a));
  fn1 "PieceKind_unpromote" TKind TOKind (fun _ a => Ret (PieceKind_unpromote a));
  fn1 "PieceKind::array_index" TKind TUsize pk_array_index;
  fn1 "PieceKind::option_array_index" (TOpt TKind) TUsize (fun _ a => Ret (pk_option_array_index a));
  fn0 "PieceKind::all" (TList TKind) (fun _ => Ret pk_all);
  fn1 "PieceKind: ToUsi::to_usi_owned" TKind TText (fun P a => to_usi_owned P (pk_to_usi P string_sink a));
  fn1 "OptionPieceKind: From<Option<PieceKind>>" (TOpt TKind) TOKind (fun _ a => Ret (opk_from a));
  fn1 "Option<PieceKind>: From<OptionPieceKind>" TOKind (TOpt TKind) (fun _ a => opk_into a);
  fn2 "PieceKind: PartialEq::eq" TKind TKind TBool (fun _ a b => Ret (pk_eqb a b));
  fn2 "PieceKind: Ord::cmp" TKind TKind TOrdering (fun _ a b => Ret (pk_cmp a b));
  fn2 "PieceKind: PartialOrd::partial_cmp" TKind TKind (TOpt TOrdering) (fun _ a b => Ret (pk_partial_cmp a b));
  fn1 "PieceKind: Hash::hash" TKind THash (fun _ a => Ret (pk_hash a))
].

(** piece.rs *)
Definition api_piece : list api := [
  fn2 "Piece::new" TKind TColor TPiece piece_new;
  fn2 "Piece_new" TKind TColor TPiece Piece_new;
  fn1 "Piece::to_parts" TPiece (TPair TKind TColor) (fun _ a => piece_to_parts a);
  fn1 "Piece::piece_kind" TPiece TKind (fun _ a => piece_piece_kind a);
  fn1 "Piece::color" TPiece TColor (fun _ a => piece_color a);
  fn1 "Piece::as_u8" TPiece TU8 (fun _ a => Ret (piece_as_u8 a));
  fn1 "Piece::promote" TPiece (TOpt TPiece) piece_promote;
  fn1 "Piece::unpromote" TPiece (TOpt TPiece) piece_unpromote;
  fn1 "Piece_promote" TPiece TOPiece Piece_promote;
  fn1 "Piece_unpromote" TPiece TOPiece Piece_unpromote;
  fn1 "Piece::array_index" TPiece TUsize piece_array_index;
  fn0 "Piece::all" (TList TPiece) piece_all;
  fn1 "Piece: ToUsi::to_usi_owned" TPiece TText (fun P a => to_usi_owned P (piece_to_usi P string_sink a));
  fn1 "OptionPiece: From<Option<Piece>>" (TOpt TPiece) TOPiece (fun _ a => Ret (op_from a));
  fn1 "Option<Piece>: From<OptionPiece>" TOPiece (TOpt TPiece) (fun _ a => Ret (op_into a));
  fn2 "Piece: PartialEq::eq" TPiece TPiece TBool (fun _ a b => Ret (piece_eqb a b));
  fn2 "Piece: Ord::cmp" TPiece TPiece TOrdering (fun _ a b => Ret (piece_cmp a b));
  fn2 "Piece: PartialOrd::partial_cmp" TPiece TPiece (TOpt TOrdering) (fun _ a b => Ret (piece_partial_cmp a b));
  fn1 "Piece: Hash::hash" TPiece THash (fun _ a => Ret (piece_hash a));
  fn2 "OptionPiece: PartialEq::eq" TOPiece TOPiece TBool (fun _ a b => Ret (op_eqb a b));
  fn2 "OptionPiece: Ord::cmp" TOPiece TOPiece TOrdering (fun _ a b => Ret (op_cmp a b));
  fn2 "OptionPiece: PartialOrd::partial_cmp" TOPiece TOPiece (TOpt TOrdering) (fun _ a b => Ret (op_partial_cmp a b));
  fn1 "OptionPiece: Hash::hash" TOPiece THash (fun _ a => Ret (op_hash a))
].

(** square.rs *)
Definition api_square : list api := [
  fn2 "Square::new" TU8 TU8 (TOpt TSquare) sq_new;
  fn2 "Square_new" TU8 TU8 TOSquare Square_new;
  fn3 "Square::new_relative" TU8 TU8 TColor (TOpt TSquare) sq_new_relative;
  fn3 "Square_new_relative" TU8 TU8 TColor TOSquare Square_new_relative;
  fn1 "Square::file" TSquare TU8 sq_file;
  fn1 "Square::rank" TSquare TU8 sq_rank;
  fn1 "Square::index" TSquare TU8 sq_index;
  fn2 "Square::relative_rank" TSquare TColor TU8 sq_relative_rank;
  fn2 "Square::relative_file" TSquare TColor TU8 sq_relative_file;
  fn1 "Square::flip" TSquare TSquare sq_flip;
  fn1 "Square::from_u8" TU8 (TOpt TSquare) (fun _ a => Ret (sq_from_u8 a));
  un1 "Square::from_u8_unchecked" TU8 TSquare (fun _ a => in_range 1 81 a) (fun _ a => sq_from_u8_unchecked a);
  fn3 "Square::shift" TSquare TI8 TI8 (TOpt TSquare) sq_shift;
  fn1 "Square::array_index" TSquare TUsize sq_array_index;
  fn0 "Square::all" (TList TSquare) (fun _ => sq_all);
  fn1 "Square: ToUsi::to_usi_owned" TSquare TText (fun P a => to_usi_owned P (sq_to_usi P string_sink a));
  fn1 "OptionSquare: From<Option<Square>>" (TOpt TSquare) TOSquare (fun _ a => Ret (os_from a));
  fn1 "Option<Square>: From<OptionSquare>" TOSquare (TOpt TSquare) (fun _ a => Ret (os_into a));
  fn2 "Square: PartialEq::eq" TSquare TSquare TBool (fun _ a b => Ret (sq_eqb a b));
  fn2 "Square: Ord::cmp" TSquare TSquare TOrdering (fun _ a b => Ret (sq_cmp a b));
  fn2 "Square: PartialOrd::partial_cmp" TSquare TSquare (TOpt TOrdering) (fun _ a b => Ret (sq_partial_cmp a b));
  fn1 "Square: Hash::hash" TSquare THash (fun _ a => Ret (sq_hash a));
  fn2 "OptionSquare: PartialEq::eq" TOSquare TOSquare TBool (fun _ a b => Ret (os_eqb a b));
  fn2 "OptionSquare: Ord::cmp" TOSquare TOSquare TOrdering (fun _ a b => Ret (os_cmp a b));
  fn2 "OptionSquare: PartialOrd::partial_cmp" TOSquare TOSquare (TOpt TOrdering) (fun _ a b => Ret (os_partial_cmp a b));
  fn1 "OptionSquare: Hash::hash" TOSquare THash (fun _ a => Ret (os_hash a))
].

(** mv.rs *)
Definition api_mv : list api := [
  fn3 "Move::Normal" TSquare TSquare TBool TMove (fun _ a b c => Ret (Normal a b c));
  fn2 "Move::Drop" TPiece TSquare TMove (fun _ a b => Ret (Drop a b));
  fn1 "Move::from" TMove (TOpt TSquare) (fun _ a => Ret (mv_from a));
  fn1 "Move::to" TMove TSquare (fun _ a => Ret (mv_to a));
  fn1 "Move::is_promoting" TMove TBool (fun _ a => Ret (mv_is_promoting a));
  fn1 "Move::is_drop" TMove TBool (fun _ a => Ret (mv_is_drop a));
  fn1 "CompactMove: From<Move>" TMove TCompact cm_of_move;
  fn1 "Move: From<CompactMove>" TCompact TMove move_of_cm;
  fn3 "CompactMove::normal" TSquare TSquare TBool TCompact cm_normal;
  fn2 "CompactMove::drop" TPiece TSquare TCompact cm_drop;
  fn1 "CompactMove::from" TCompact (TOpt TSquare) cm_from;
  fn1 "CompactMove_from" TCompact TOSquare CompactMove_from;
  fn1 "CompactMove::to" TCompact TSquare (fun _ a => cm_to a);
  fn1 "CompactMove::is_promoting" TCompact TBool (fun _ a => Ret (cm_is_promoting a));
  fn1 "CompactMove::is_drop" TCompact TBool (fun _ a => Ret (cm_is_drop a));
  fn1 "Move: ToUsi::to_usi_owned" TMove TText (fun P a => to_usi_owned P (move_to_usi P string_sink a));
  fn1 "CompactMove: ToUsi::to_usi_owned" TCompact TText (fun P a => to_usi_owned P (cm_to_usi P string_sink a));
  fn1 "OptionCompactMove: From<Option<CompactMove>>" (TOpt TCompact) TOCompact (fun _ a => Ret (ocm_from a));
  fn1 "Option<CompactMove>: From<OptionCompactMove>" TOCompact (TOpt TCompact) (fun _ a => Ret (ocm_into a));
  fn2 "Move: PartialEq::eq" TMove TMove TBool (fun _ a b => Ret (move_eqb a b));
  fn2 "Move: Ord::cmp" TMove TMove TOrdering (fun _ a b => Ret (move_cmp a b));
  fn2 "Move: PartialOrd::partial_cmp" TMove TMove (TOpt TOrdering) (fun _ a b => Ret (move_partial_cmp a b));
  fn1 "Move: Hash::hash" TMove THash (fun _ a => Ret (move_hash a));
  fn2 "CompactMove: PartialEq::eq" TCompact TCompact TBool (fun _ a b => Ret (cm_eqb a b));
  fn2 "CompactMove: Ord::cmp" TCompact TCompact TOrdering (fun _ a b => Ret (cm_cmp a b));
  fn2 "CompactMove: PartialOrd::partial_cmp" TCompact TCompact (TOpt TOrdering) (fun _ a b => Ret (cm_partial_cmp a b));
  fn1 "CompactMove: Hash::hash" TCompact THash (fun _ a => Ret (cm_hash a));
  fn2 "OptionCompactMove: PartialEq::eq" TOCompact TOCompact TBool (fun _ a b => Ret (ocm_eqb a b));
  fn2 "OptionCompactMove: Ord::cmp" TOCompact TOCompact TOrdering (fun _ a b => Ret (ocm_cmp a b));
  fn2 "OptionCompactMove: PartialOrd::partial_cmp" TOCompact TOCompact (TOpt TOrdering) (fun _ a b => Ret (ocm_partial_cmp a b));
  fn1 "OptionCompactMove: Hash::hash" TOCompact THash (fun _ a => Ret (ocm_hash a))
].

(** hand.rs *)
Definition api_hand : list api := [
  fn0 "Hand::new" THand (fun _ => Ret hand_new);
  fn0 "Hand: Default::default" THand (fun _ => Ret hand_default);
  fn2 "Hand::added" THand TKind (TOpt THand) hand_added;
  fn2 "Hand::removed" THand TKind (TOpt THand) hand_removed;
  fn2 "Hand::count" THand TKind (TOpt TU8) hand_count;
  fn2 "Hand_add" THand TKind (TPair THand TBool) Hand_add;
  fn2 "Hand_remove" THand TKind (TPair THand TBool) Hand_remove;
  fn2 "Hand_count" THand TKind TU8 Hand_count;
  fn1 "Hand::is_hand_piece" TKind TBool (fun _ a => Ret (is_hand_piece a));
  fn0 "Hand::all_hand_pieces" (TList TKind) (fun _ => all_hand_pieces);
  fn2 "[Hand; 2]: ToUsi::to_usi_owned" THand THand TText (fun P a b => to_usi_owned P (hands_to_usi P string_sink [a; b]));
  fn2 "Hand: PartialEq::eq" THand THand TBool (fun _ a b => Ret (hand_eqb a b));
  fn2 "Hand: Ord::cmp" THand THand TOrdering (fun _ a b => Ret (hand_cmp a b));
  fn2 "Hand: PartialOrd::partial_cmp" THand THand (TOpt TOrdering) (fun _ a b => Ret (hand_partial_cmp a b));
  fn1 "Hand: Hash::hash" THand THash (fun _ a => Ret (hand_hash a))
].

(** bitboard.rs *)
Definition api_bitboard : list api := [
  fn0 "Bitboard::empty" TBB (fun _ => Ret bb_empty);
  fn1 "Bitboard::single" TSquare TBB bb_single;
  fn1 "Bitboard::count" TBB TU8 bb_count;
  fn1 "Bitboard::is_empty" TBB TBool (fun _ a => Ret (bb_is_empty a));
  fn2 "Bitboard::contains" TBB TSquare TBool bb_contains;
  fn1 "Bitboard::flip" TBB TBB bb_flip;
  fn1 "Bitboard::pop" TBB (TPair TBB (TOpt TSquare)) bb_pop;
  fn1 "Bitboard_pop" TBB (TPair TBB TOSquare) Bitboard_pop;
  fn1 "Bitboard: Iterator::next" TBB (TPair TBB (TOpt TSquare)) bb_next;
  fn1 "Bitboard: Iterator::size_hint" TBB (TPair TUsize (TOpt TUsize)) (fun _ a => Ret (bb_size_hint a));
  fn1 "Bitboard::to_u128" TBB TU128 bb_to_u128;
  un1 "Bitboard::from_u128_unchecked" TU128 TBB (fun lax a => u128_of_bitboard lax a) bb_from_u128_unchecked;
  un2 "Bitboard::from_file_unchecked" TU8 TU16 TBB (fun _ a b => in_range 1 9 a && (b <? 512)) bb_from_file_unchecked;
  un2 "Bitboard::get_file_unchecked" TBB TU8 TU16 (fun _ _ b => in_range 1 9 b) bb_get_file_unchecked;
  fn2 "Bitboard::or" TBB TBB TBB (fun _ a b => Ret (bb_or a b));
  fn2 "Bitboard::and" TBB TBB TBB (fun _ a b => Ret (bb_and a b));
  fn2 "Bitboard::xor" TBB TBB TBB (fun _ a b => Ret (bb_xor a b));
  fn2 "Bitboard::andnot" TBB TBB TBB (fun _ a b => Ret (bb_andnot a b));
  fn2 "Bitboard: BitOrAssign<Square>" TBB TSquare TBB bb_or_square;
  fn2 "Bitboard: BitAndAssign<Square>" TBB TSquare TBB bb_and_square;
  fn2 "Bitboard: BitXorAssign<Square>" TBB TSquare TBB bb_xor_square;
  fn1 "Bitboard: Not::not" TBB TBB (fun _ a => Ret (bb_not a));
  fn1 "Bitboard::swap_bytes" TBB TBS (fun _ a => Ret (bb_swap_bytes a));
  un2 "Bitboard::shift_down" TBB TU8 TBB (fun _ _ b => b <=? 9) bb_shift_down;
  un2 "Bitboard::shift_up" TBB TU8 TBB (fun _ _ b => b <=? 9) bb_shift_up;
  un2 "Bitboard::shift_left" TBB TU8 TBB (fun _ _ b => b <=? 9) bb_shift_left;
  un2 "Bitboard::shift_right" TBB TU8 TBB (fun lax a b => (b <=? 9) && (lax || shift_right_clean a b)) bb_shift_right;
  fn1 "ByteSwappedBitboard::to_u128" TBS TU128 bs_to_u128;
  un1 "ByteSwappedBitboard::from_u128_unchecked" TU128 TBS (fun lax a => u128_of_swapped lax a) bs_from_u128_unchecked;
  fn2 "ByteSwappedBitboard::or" TBS TBS TBS (fun _ a b => Ret (bs_or a b));
  fn2 "ByteSwappedBitboard::and" TBS TBS TBS (fun _ a b => Ret (bs_and a b));
  fn2 "ByteSwappedBitboard::xor" TBS TBS TBS (fun _ a b => Ret (bs_xor a b));
  fn2 "ByteSwappedBitboard::andnot" TBS TBS TBS (fun _ a b => Ret (bs_andnot a b));
  fn1 "ByteSwappedBitboard::swap_bytes" TBS TBB (fun _ a => Ret (bs_swap_bytes a));
  fn2 "Bitboard: PartialEq::eq" TBB TBB TBool (fun _ a b => Ret (bb_eqb a b));
  fn2 "Bitboard: Ord::cmp" TBB TBB TOrdering (fun _ a b => Ret (bb_cmp a b));
  fn2 "Bitboard: PartialOrd::partial_cmp" TBB TBB (TOpt TOrdering) (fun _ a b => Ret (bb_partial_cmp a b));
  fn1 "Bitboard: Hash::hash" TBB THash (fun _ a => Ret (bb_hash a));
  fn2 "ByteSwappedBitboard: PartialEq::eq" TBS TBS TBool (fun _ a b => Ret (bs_eqb a b));
  fn2 "ByteSwappedBitboard: Ord::cmp" TBS TBS TOrdering (fun _ a b => Ret (bs_cmp a b));
  fn2 "ByteSwappedBitboard: PartialOrd::partial_cmp" TBS TBS (TOpt TOrdering) (fun _ a b => Ret (bs_partial_cmp a b));
  fn1 "ByteSwappedBitboard: Hash::hash" TBS THash (fun _ a => Ret (bs_hash a))
].

(** game_resolution.rs, illegal_move_kind.rs, legality.rs (PositionStatus) *)
Definition api_game_resolution : list api := [
  un1 "GameResolution::from_u8_unchecked" TU8 TGr (fun _ a => in_range 1 5 a) (fun _ a => gr_from_u8_unchecked a);
  fn0 "OptionGameResolution: Default::default" TOgr (fun _ => Ret ogr_default);
  fn1 "OptionGameResolution: From<Option<GameResolution>>" (TOpt TGr) TOgr (fun _ a => Ret (ogr_from a));
  fn1 "Option<GameResolution>: From<OptionGameResolution>" TOgr (TOpt TGr) (fun _ a => ogr_into a);
  fn1 "IllegalMoveKind::from_u8" TU8 (TOpt TImk) (fun _ a => imk_from_u8 a);
  un1 "IllegalMoveKind::from_u8_unchecked" TU8 TImk (fun _ a => in_range 1 7 a) (fun _ a => imk_from_u8_unchecked a);
  fn0 "ResultUnitIllegalMoveKind: Default::default" TRui (fun _ => Ret rui_default);
  fn1 "ResultUnitIllegalMoveKind: From<Option<IllegalMoveKind>>" (TOpt TImk) TRui (fun _ a => Ret (rui_from_option a));
  fn1 "Option<IllegalMoveKind>: From<ResultUnitIllegalMoveKind>" TRui (TOpt TImk) (fun _ a => rui_into_option a);
  fn1 "ResultUnitIllegalMoveKind: From<Result<(), IllegalMoveKind>>" TResult TRui (fun _ a => Ret (rui_from_result a));
  fn1 "Result<(), IllegalMoveKind>: From<ResultUnitIllegalMoveKind>" TRui TResult (fun _ a => rui_into_result a);
  fn2 "GameResolution: PartialEq::eq" TGr TGr TBool (fun _ a b => Ret (gr_eqb a b));
  fn2 "GameResolution: Ord::cmp" TGr TGr TOrdering (fun _ a b => Ret (gr_cmp a b));
  fn2 "GameResolution: PartialOrd::partial_cmp" TGr TGr (TOpt TOrdering) (fun _ a b => Ret (gr_partial_cmp a b));
  fn1 "GameResolution: Hash::hash" TGr THash (fun _ a => Ret (gr_hash a));
  fn2 "OptionGameResolution: PartialEq::eq" TOgr TOgr TBool (fun _ a b => Ret (ogr_eqb a b));
  fn2 "OptionGameResolution: Ord::cmp" TOgr TOgr TOrdering (fun _ a b => Ret (ogr_cmp a b));
  fn2 "OptionGameResolution: PartialOrd::partial_cmp" TOgr TOgr (TOpt TOrdering) (fun _ a b => Ret (ogr_partial_cmp a b));
  fn1 "OptionGameResolution: Hash::hash" TOgr THash (fun _ a => Ret (ogr_hash a));
  fn2 "IllegalMoveKind: PartialEq::eq" TImk TImk TBool (fun _ a b => Ret (imk_eqb a b));
  fn2 "IllegalMoveKind: Ord::cmp" TImk TImk TOrdering (fun _ a b => Ret (imk_cmp a b));
  fn2 "IllegalMoveKind: PartialOrd::partial_cmp" TImk TImk (TOpt TOrdering) (fun _ a b => Ret (imk_partial_cmp a b));
  fn1 "IllegalMoveKind: Hash::hash" TImk THash (fun _ a => Ret (imk_hash a));
  fn2 "ResultUnitIllegalMoveKind: PartialEq::eq" TRui TRui TBool (fun _ a b => Ret (rui_eqb a b));
  fn2 "ResultUnitIllegalMoveKind: Ord::cmp" TRui TRui TOrdering (fun _ a b => Ret (rui_cmp a b));
  fn2 "ResultUnitIllegalMoveKind: PartialOrd::partial_cmp" TRui TRui (TOpt TOrdering) (fun _ a b => Ret (rui_partial_cmp a b));
  fn1 "ResultUnitIllegalMoveKind: Hash::hash" TRui THash (fun _ a => Ret (rui_hash a))
].

(** position.rs: PartialPosition *)
Definition api_partial_position : list api := [
  fn0 "PartialPosition::empty" TPP (fun _ => Ret pp_empty);
  fn0 "PartialPosition::startpos" TPP pp_startpos;
  fn0 "PartialPosition: Default::default" TPP pp_startpos;
  fn1 "PartialPosition::side_to_move" TPP TColor (fun _ a => Ret (side_to_move a));
  fn2 "PartialPosition::side_to_move_set" TPP TColor TPP (fun _ a b => Ret (side_to_move_set a b));
  fn2 "PartialPosition::hand_of_a_player" TPP TColor THand hand_of_a_player;
  fn3 "*PartialPosition::hand_of_a_player_mut = h" TPP TColor THand TPP hand_of_a_player_store;
  fn2 "PartialPosition::hand" TPP TPiece (TOpt TU8) pp_hand;
  fn1 "PartialPosition::ply" TPP TU16 (fun _ a => Ret (ply a));
  fn2 "PartialPosition::ply_set" TPP TU16 (TPair TPP TBool) (fun _ a b => Ret (ply_set a b));
  fn2 "PartialPosition::piece_at" TPP TSquare (TOpt TPiece) piece_at;
  fn2 "PartialPosition_piece_at" TPP TSquare TOPiece PartialPosition_piece_at;
  fn3 "PartialPosition::piece_set" TPP TSquare (TOpt TPiece) TPP piece_set;
  fn1 "PartialPosition::occupied_bitboard" TPP TBB (fun _ a => occupied_bitboard a);
  fn1 "PartialPosition::vacant_bitboard" TPP TBB (fun _ a => vacant_bitboard a);
  fn2 "PartialPosition::player_bitboard" TPP TColor TBB player_bitboard;
  fn2 "PartialPosition::piece_bitboard" TPP TPiece TBB piece_bitboard;
  fn2 "PartialPosition::piece_kind_bitboard" TPP TKind TBB piece_kind_bitboard;
  fn1 "PartialPosition::last_move" TPP (TOpt TMove) last_move;
  fn1 "PartialPosition::last_compact_move" TPP (TOpt TCompact) (fun _ a => Ret (last_compact_move a));
  fn1 "PartialPosition_last_compact_move" TPP TOCompact (fun _ a => Ret (PartialPosition_last_compact_move a));
  fn2 "PartialPosition::king_position" TPP TColor (TOpt TSquare) king_position;
  fn2 "PartialPosition::make_move" TPP TMove (TPair TPP (TOpt TUnit)) (fun P a b => make_move P b a);
  fn2 "PartialPosition::make_compact_move" TPP TCompact (TPair TPP TBool) make_compact_move;
  fn1 "PartialPosition::to_sfen_owned" TPP TText to_sfen_owned;
  fn2 "PartialPosition::to_sfen_c" TPP TUsize TWrites to_sfen_c;
  fn2 "PartialPosition: PartialEq::eq" TPP TPP TBool (fun _ a b => Ret (pp_eqb a b));
  fn2 "PartialPosition: Ord::cmp" TPP TPP TOrdering (fun _ a b => Ret (pp_cmp a b));
  fn2 "PartialPosition: PartialOrd::partial_cmp" TPP TPP (TOpt TOrdering) (fun _ a b => Ret (pp_partial_cmp a b));
  fn1 "PartialPosition: Hash::hash" TPP THash (fun _ a => Ret (pp_hash a))
].

(** position.rs: Position *)
Definition api_full_position : list api := [
  fn1 "Position::inner" TPosition TPP (fun _ a => Ret (inner a));
  fn1 "Position::initial_position" TPosition TPP (fun _ a => Ret (initial_position a));
  fn0 "Position::startpos" TPosition pos_startpos;
  fn0 "Position::default" TPosition pos_default;
  fn1 "Position::arbitrary_position" TPP TPosition (fun _ a => Ret (arbitrary_position a));
  fn1 "Position::side_to_move" TPosition TColor (fun _ a => Ret (pos_side_to_move a));
  fn2 "Position::hand_of_a_player" TPosition TColor THand pos_hand_of_a_player;
  fn3 "*Position::hand_of_a_player_mut = h" TPosition TColor THand TPosition pos_hand_store;
  fn2 "Position::hand" TPosition TPiece (TOpt TU8) pos_hand;
  fn1 "Position::ply" TPosition TU16 (fun _ a => Ret (pos_ply a));
  fn2 "Position::piece_at" TPosition TSquare (TOpt TPiece) pos_piece_at;
  fn3 "Position::piece_set" TPosition TSquare (TOpt TPiece) TPosition pos_piece_set;
  fn1 "Position::occupied_bitboard" TPosition TBB (fun _ a => pos_occupied_bitboard a);
  fn1 "Position::vacant_bitboard" TPosition TBB (fun _ a => pos_vacant_bitboard a);
  fn2 "Position::player_bitboard" TPosition TColor TBB pos_player_bitboard;
  fn2 "Position::piece_bitboard" TPosition TPiece TBB pos_piece_bitboard;
  fn1 "Position::last_move" TPosition (TOpt TMove) pos_last_move;
  fn1 "Position::last_compact_move" TPosition (TOpt TCompact) (fun _ a => Ret (pos_last_compact_move a));
  fn1 "Position::moves" TPosition (TList TMove) (fun _ a => Ret (moves a));
  fn2 "Position::make_move" TPosition TMove (TPair TPosition (TOpt TUnit)) pos_make_move;
  fn2 "Position::make_compact_move" TPosition TCompact (TPair TPosition TBool) pos_make_compact_move;
  fn1 "Position::to_sfen_owned" TPosition TText pos_to_sfen_owned;
  fn2 "Position::to_sfen_c" TPosition TUsize TWrites pos_to_sfen_c;
  fn2 "Position: PartialEq::eq" TPosition TPosition TBool (fun _ a b => Ret (pos_eqb a b));
  fn2 "Position: Ord::cmp" TPosition TPosition TOrdering (fun _ a b => Ret (pos_cmp a b));
  fn2 "Position: PartialOrd::partial_cmp" TPosition TPosition (TOpt TOrdering) (fun _ a b => Ret (pos_partial_cmp a b));
  fn1 "Position: Hash::hash" TPosition THash (fun _ a => Ret (pos_hash a))
].

(** position.rs: Game, PartialGame *)
Definition api_game : list api := [
  fn0 "Game: Default::default" TGame game_default;
  fn0 "PartialGame: Default::default" TPGame partial_game_default;
  fn1 "Game::position" TGame TPosition (fun _ a => Ret (game_position a));
  fn2 "Game::resolve" TGame TGr TGame (fun _ a b => Ret (game_resolve a b));
  fn1 "Game::unresolve" TGame TGame (fun _ a => Ret (game_unresolve a));
  fn1 "Game::resolution" TGame (TOpt TGr) (fun _ a => game_resolution_of a);
  fn1 "Game_resolution" TGame TOgr (fun _ a => Ret (Game_resolution a));
  fn2 "Game: PartialEq::eq" TGame TGame TBool (fun _ a b => Ret (game_eqb pos_eqb a b));
  fn2 "Game: Ord::cmp" TGame TGame TOrdering (fun _ a b => Ret (game_cmp pos_cmp a b));
  fn2 "Game: PartialOrd::partial_cmp" TGame TGame (TOpt TOrdering) (fun _ a b => Ret (game_partial_cmp pos_cmp a b));
  fn1 "Game: Hash::hash" TGame THash (fun _ a => Ret (game_hash pos_hash a));
  fn1 "PartialGame::position" TPGame TPP (fun _ a => Ret (game_position a));
  fn2 "PartialGame::resolve" TPGame TGr TPGame (fun _ a b => Ret (game_resolve a b));
  fn1 "PartialGame::unresolve" TPGame TPGame (fun _ a => Ret (game_unresolve a));
  fn1 "PartialGame::resolution" TPGame (TOpt TGr) (fun _ a => game_resolution_of a);
  fn1 "PartialGame_resolution" TPGame TOgr (fun _ a => Ret (Game_resolution a));
  fn2 "PartialGame: PartialEq::eq" TPGame TPGame TBool (fun _ a b => Ret (game_eqb pp_eqb a b));
  fn2 "PartialGame: Ord::cmp" TPGame TPGame TOrdering (fun _ a b => Ret (game_cmp pp_cmp a b));
  fn2 "PartialGame: PartialOrd::partial_cmp" TPGame TPGame (TOpt TOrdering) (fun _ a b => Ret (game_partial_cmp pp_cmp a b));
  fn1 "PartialGame: Hash::hash" TPGame THash (fun _ a => Ret (game_hash pp_hash a))
].

(** The whole public interface *)
Definition the_api : list api :=
  api_color ++ api_piece_kind ++ api_piece ++ api_square ++ api_mv ++ api_hand ++ api_bitboard ++ api_game_resolution ++ api_partial_position ++ api_full_position ++ api_game.


(** ** Values a program can hold *)
Definition valid_bitboard (lax : bool) (b : bitboard) : Prop :=
  bb0 b < 2 ^ (if lax then 64 else 63) /\ bb1 b < 2 ^ 18.
Definition valid_full (P : profile) (p : position) : Prop :=
  reachable P (pos_initial p) /\ reachable P (pos_inner p) /\ Forall valid_move (pos_moves p).
Definition valid_resolution (o : option_game_resolution) : Prop := ogr_repr o <= 5.

Fixpoint vok (lax : bool) (P : profile) (t : ty) : den t -> Prop :=
  match t with
  | TU8 => fun n => n < 256
  | TU16 => fun n => n < 65536
  | TUsize => fun n => n < 2 ^ 64
  | TU128 => fun n => n < 2 ^ 128
  | TI8 => is_i8
  | TOKind => fun o => opk_repr o <= 14
  | TPiece => valid_piece
  | TOPiece => fun o => op_repr o = 0 \/ valid_piece (Piece (op_repr o))
  | TSquare => valid_square
  | TOSquare => fun o => os_repr o <= 81
  | TMove => valid_move
  | TCompact => valid_compact
  | TOCompact => fun o => ocm_repr o = 0 \/ valid_compact (CompactMove (ocm_repr o))
  | THand => valid_hand
  | TBB => valid_bitboard lax
  | TBS => fun b => bs0 b < 2 ^ 64 /\ bs1 b < 2 ^ 64 /\ valid_bitboard lax (Bitboard (swap_bytes64 (bs1 b)) (swap_bytes64 (bs0 b)))
  | TOgr => valid_resolution
  | TRui => fun o => rui_repr o <= 7
  | TPP => reachable P
  | TPosition => valid_full P
  | TGame => fun g => valid_full P (g_inner g) /\ valid_resolution (g_resolution g)
  | TPGame => fun g => reachable P (g_inner g) /\ valid_resolution (g_resolution g)
  | TOpt t => fun o => match o with Some x => vok lax P t x | None => True end
  | TPair t u => fun x => vok lax P t (fst x) /\ vok lax P u (snd x)
  | TList t => fun l => Forall (vok lax P t) l
  | _ => fun _ => True
  end.
Fixpoint oks (lax : bool) (P : profile) (ts : list ty) : dens ts -> Prop :=
  match ts with
  | [] => fun _ => True
  | t :: ts => fun x => vok lax P t (fst x) /\ oks lax P ts (snd x)
  end.

(** A call returns normally with a valid value whenever its arguments are valid and its safety
    condition holds. *)
Definition safe (lax : bool) (P : profile) (a : api) : Prop :=
  forall args, oks lax P (a_args a) args -> a_pre a lax args = true ->
  exists v, a_fun a P args = Ret v /\ vok lax P (a_ret a) v.

(** ** Executions. A program keeps the values it has seen; one step creates a literal, calls a
    function on values it has, or takes apart an option, a pair or a list. *)
Definition ty_eq_dec (t u : ty) : {t = u} + {t <> u}.
Proof. decide equality. Defined.
Record value := Val { v_ty : ty; v_val : den v_ty }.
Definition as_ty (t : ty) (v : value) : option (den t) :=
  match ty_eq_dec (v_ty v) t with
  | left e => Some (eq_rect _ den (v_val v) _ e)
  | right _ => None
  end.

Inductive literal :=
| LBool (b : bool) | LU8 (n : N) | LU16 (n : N) | LU128 (n : N) | LUsize (n : N) | LI8 (z : Z)
| LColor (c : color) | LKind (k : piece_kind) | LGr (g : game_resolution) | LImk (k : illegal_move_kind)
| LOk | LNone (t : ty).
Definition literal_ok (l : literal) : bool :=
  match l with
  | LU8 n => n <? 256 | LU16 n => n <? 65536 | LU128 n => n <? 2 ^ 128 | LUsize n => n <? 2 ^ 64
  | LI8 z => ((-128 <=? z) && (z <=? 127))%Z
  | _ => true
  end.
Definition literal_value (l : literal) : value :=
  match l with
  | LBool b => Val TBool b | LU8 n => Val TU8 n | LU16 n => Val TU16 n | LU128 n => Val TU128 n
  | LUsize n => Val TUsize n | LI8 z => Val TI8 z
  | LColor c => Val TColor c | LKind k => Val TKind k | LGr g => Val TGr g | LImk k => Val TImk k
  | LOk => Val TResult ROk | LNone t => Val (TOpt t) None
  end.

Inductive step :=
| Literal (l : literal)
| Call (f : nat) (args : list nat)      (* function number [f] of the table on earlier values *)
| WrapSome (i : nat) | WrapErr (i : nat)
| GetSome (i : nat) | GetFst (i : nat) | GetSnd (i : nat) | GetNth (i j : nat).

Fixpoint operands (env : list value) (ts : list ty) (is : list nat) : option (dens ts) :=
  match ts, is with
  | [], [] => Some tt
  | t :: ts, i :: is =>
      match nth_error env i with
      | Some v => match as_ty t v, operands env ts is with
                  | Some x, Some xs => Some (x, xs)
                  | _, _ => None
                  end
      | None => None
      end
  | _, _ => None
  end.
Definition take_apart (s : step) (env : list value) : option value :=
  match s with
  | WrapSome i => match nth_error env i with Some (Val t x) => Some (Val (TOpt t) (Some x)) | None => None end
  | WrapErr i => match nth_error env i with Some (Val TImk x) => Some (Val TResult (RErr x)) | _ => None end
  | GetSome i => match nth_error env i with Some (Val (TOpt t) (Some x)) => Some (Val t x) | _ => None end
  | GetFst i => match nth_error env i with Some (Val (TPair t u) x) => Some (Val t (fst x)) | _ => None end
  | GetSnd i => match nth_error env i with Some (Val (TPair t u) x) => Some (Val u (snd x)) | _ => None end
  | GetNth i j => match nth_error env i with
                  | Some (Val (TList t) l) => match nth_error l j with Some x => Some (Val t x) | None => None end
                  | _ => None
                  end
  | _ => None
  end.
(** One step. [None]: not a step of a program that type-checks and respects the safety conditions
    (also [GetSome] on [None], i.e. the branch is not taken). *)
Definition do_step (lax : bool) (P : profile) (env : list value) (s : step) : option (res value) :=
  match s with
  | Literal l => if literal_ok l then Some (Ret (literal_value l)) else None
  | Call f is =>
      match nth_error the_api f with
      | Some a =>
          match operands env (a_args a) is with
          | Some args => if a_pre a lax args then Some (x <- a_fun a P args;; Ret (Val (a_ret a) x)) else None
          | None => None
          end
      | None => None
      end
  | _ => match take_apart s env with Some v => Some (Ret v) | None => None end
  end.
Fixpoint execute (lax : bool) (P : profile) (env : list value) (ss : list step) : option (res (list value)) :=
  match ss with
  | [] => Some (Ret env)
  | s :: ss =>
      match do_step lax P env s with
      | Some (Ret v) => execute lax P (v :: env) ss
      | Some Panic => Some Panic
      | Some UB => Some UB
      | None => None
      end
  end.
Definition value_ok (lax : bool) (P : profile) (v : value) : Prop := vok lax P (v_ty v) (v_val v).

(** The number of a function, by name *)
Fixpoint find_api (name : string) (l : list api) : option nat :=
  match l with
  | [] => None
  | a :: l => if String.eqb (a_name a) name then Some O else option_map S (find_api name l)
  end.
Definition call (name : string) (args : list nat) : step :=
  Call (match find_api name the_api with Some n => n | None => length the_api end) args.

(** The functions that take a square out of a bitboard, and such a call on a bitboard whose lowest bit is the
    bit 63 of the first word, which stands for no square *)
Definition pops (a : api) : Prop :=
  In (a_name a) ["Bitboard::pop"; "Bitboard_pop"; "Bitboard: Iterator::next"]%string.
Definition stray_pop (env : list value) (s : step) : Prop :=
  exists f i a b, s = Call f [i] /\ nth_error the_api f = Some a /\ pops a /\ nth_error env i = Some (Val TBB b) /\ bb0 b = 2 ^ 63.
