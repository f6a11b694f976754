{"id": "C01", "title": "Square construction is exact", "statement": "Square::new(file, rank) returns Some exactly when file and rank are both in 1..=9; the returned square reports exactly that file and rank through file() and rank(), and index() = 9*file + rank - 9. Every square arises this way, from exactly one (file, rank).", "quantifier": "every pair of u8 values, every Square, both build profiles", "why_tests_cant": "uses wrapping arithmetic and a multiply-shift division; tests check points, and cannot state that no other square value exists", "anchors": ["shogi_core/src/square.rs: Square::new, file, rank, index"]}
{"id": "C02", "title": "Relative coordinates and flip are the 180-degree rotation", "statement": "flip() maps (file, rank) to (10-file, 10-rank) and is an involution; new_relative(f, r, c) is new(f, r) for Black and its flip for White; relative_file/relative_rank give the coordinates seen by that player, and new_relative(relative_file, relative_rank, c) gives the square back.", "quantifier": "every Square, every u8 pair, both colors", "why_tests_cant": "relation between five functions over the whole domain", "anchors": ["shogi_core/src/square.rs: new_relative, relative_file, relative_rank, flip"]}
{"id": "C03", "title": "Square::shift is exact translation", "statement": "shift(df, dr) returns Some(the square at (file+df, rank+dr)) when that point is on the board and None otherwise; the i8 arithmetic never wraps a far-away point back on the board.", "quantifier": "every Square and every pair of i8 deltas (the shipped test stops at 126)", "why_tests_cant": "the shipped loop omits 127 and the claim is about wrap-around", "anchors": ["shogi_core/src/square.rs: shift"]}
{"id": "C04", "title": "Squares, indices and from_u8 are in bijection", "statement": "from_u8(v) is Some exactly for v in 1..=81 and then index() = v; array_index() is index()-1, in 0..81; all() lists every square exactly once in ascending index order; OptionSquare encodes None as 0 and round-trips.", "quantifier": "every u8 value and every Square", "why_tests_cant": "completeness and uniqueness of an enumeration", "anchors": ["shogi_core/src/square.rs: from_u8, from_u8_unchecked, array_index, all, OptionSquare"]}
{"id": "C05", "title": "Piece is exactly a (kind, color) pair", "statement": "to_parts is a two-sided inverse of Piece::new; as_u8 is in 1..=14 for black and 17..=30 for white and identifies the piece; Piece::all() lists each of the 28 pieces exactly once; array_index is injective and below NUM.", "quantifier": "every PieceKind, every Color, every Piece value", "why_tests_cant": "injectivity and surjectivity of an encoding", "anchors": ["shogi_core/src/piece.rs: Piece::new, to_parts, piece_kind, color, as_u8, all, array_index"]}
{"id": "C06", "title": "promote and unpromote are mutually inverse and colour preserving", "statement": "k.promote() = Some(k') iff k'.unpromote() = Some(k); promotion is possible exactly for Pawn, Lance, Knight, Silver, Bishop, Rook; promote/unpromote of a Piece keep the color and act on the kind like PieceKind's.", "quantifier": "every PieceKind and Piece", "why_tests_cant": "an iff between two functions for all arguments", "anchors": ["shogi_core/src/piece_kind.rs: promote, unpromote", "shogi_core/src/piece.rs: promote, unpromote"]}
{"id": "C07", "title": "C-compatible option types round-trip", "statement": "OptionSquare, OptionPiece, OptionPieceKind, OptionCompactMove, OptionGameResolution and ResultUnitIllegalMoveKind convert from and to their Rust counterpart without loss, use 0 for None/Ok, and different values have different representations; from_u8 of the enums accepts exactly the documented range.", "quantifier": "every value of each type, every u8 representation", "why_tests_cant": "losslessness in both directions over the complete types", "anchors": ["shogi_core/src/square.rs: OptionSquare", "shogi_core/src/piece.rs: OptionPiece", "shogi_core/src/piece_kind.rs: OptionPieceKind, from_u8", "shogi_core/src/mv.rs: OptionCompactMove", "shogi_core/src/game_resolution.rs: OptionGameResolution", "shogi_core/src/illegal_move_kind.rs: ResultUnitIllegalMoveKind, from_u8"]}
{"id": "C08", "title": "Move and CompactMove round-trip", "statement": "Converting a Move to CompactMove and back gives the same Move; the compact form is never zero and is promote*32768+from*256+to or piece*256+128+to; distinct moves have distinct compact forms; every CompactMove obtainable from the API comes from exactly one Move; CompactMove::normal/drop are the same as converting the Move.", "quantifier": "every Move over all squares and pieces, every reachable CompactMove", "why_tests_cant": "injectivity needs all pairs of moves; bit packing", "anchors": ["shogi_core/src/mv.rs: From<Move> for CompactMove, From<CompactMove> for Move, normal, drop"]}
{"id": "C09", "title": "CompactMove accessors agree with the Move", "statement": "from(), to(), is_promoting(), is_drop() on a CompactMove return what the same accessors return on the Move it encodes.", "quantifier": "every Move", "why_tests_cant": "agreement of two implementations on the whole type", "anchors": ["shogi_core/src/mv.rs: CompactMove::from, to, is_promoting, is_drop, Move::from, to, is_promoting, is_drop"]}
{"id": "C10", "title": "Hand is a multiset over the seven hand kinds", "statement": "Hand::new() counts 0 of everything; added(k) succeeds exactly for the seven hand kinds and increases count(k) by one modulo 256, leaving every other count unchanged; removed(k) succeeds exactly when k is a hand kind with count(k) > 0 and decreases it by one; count(k) is None exactly for non-hand kinds; is_hand_piece and all_hand_pieces describe the same seven kinds.", "quantifier": "every hand reachable by any history of additions and removals, every kind", "why_tests_cant": "needs every history; frame condition on the other counts", "anchors": ["shogi_core/src/hand.rs: new, added, removed, count, is_hand_piece, all_hand_pieces, Hand_add, Hand_remove, Hand_count"]}
{"id": "C11", "title": "Hand histories are add/remove counting with documented wrap", "statement": "After any sequence of Hand_add/Hand_remove calls, the count of k is what an 8-bit wrapping counter would hold; removed undoes added except at the documented wrap 255 -> 0; added always undoes removed; two hands are == iff they have the same counts.", "quantifier": "every sequence of operations of any length", "why_tests_cant": "unbounded histories, wrap-around", "anchors": ["shogi_core/src/hand.rs: added, removed, PartialEq for Hand, as_u64"]}
{"id": "C12", "title": "Bitboard operations are set algebra", "statement": "contains() of empty, single, |, &, ^, !, andnot (and the assign/Square/C forms) is the membership of the empty set, singleton, union, intersection, symmetric difference, complement within 81 squares, and (not self) and other; every result is a valid bitboard.", "quantifier": "every pair of valid bitboards (2^81 each) and every square", "why_tests_cant": "2^162 pairs cannot be enumerated", "anchors": ["shogi_core/src/bitboard.rs: empty, single, contains, or, and, xor, andnot, BitAnd/BitOr/BitXor/Not impls, *_assign, Bitboard_bit*"]}
{"id": "C13", "title": "Bitboard equality is set equality; count is cardinality", "statement": "Two valid bitboards are == iff they contain the same squares; count() is the number of squares contained (never truncated by the u8 cast); is_empty() iff no square is contained iff count() = 0.", "quantifier": "every valid bitboard", "why_tests_cant": "2^81 values; extensionality is a universal statement", "anchors": ["shogi_core/src/bitboard.rs: count, is_empty, PartialEq"]}
{"id": "C14", "title": "pop removes exactly one member; iteration enumerates the set", "statement": "pop() on an empty board returns None and changes nothing; otherwise it returns a member (the one with the least index) and removes exactly that member. Iterating until None yields every member exactly once in ascending index order, count() items in total, and leaves the board empty; size_hint's upper bound is respected.", "quantifier": "every valid bitboard", "why_tests_cant": "2^81 values, bit tricks, induction over the iteration", "anchors": ["shogi_core/src/bitboard.rs: pop, Bitboard_pop, Iterator for Bitboard"]}
{"id": "C15", "title": "Bitboard::flip rotates the set", "statement": "flip() contains s.flip() iff self contains s; it is a valid bitboard, has the same count, and flipping twice gives the original.", "quantifier": "every valid bitboard", "why_tests_cant": "tests only flip singletons", "anchors": ["shogi_core/src/bitboard.rs: flip"]}
{"id": "C16", "title": "shift_down, shift_up, shift_left translate the set", "statement": "For delta in 0..=9, shift_down/shift_up/shift_left return a valid bitboard containing exactly the squares of self moved by delta ranks down / up / files left, those leaving the board being dropped.", "quantifier": "every valid bitboard and every delta in 0..=9", "why_tests_cant": "tests use one board; shift_left is compared only for two deltas", "anchors": ["shogi_core/src/bitboard.rs: shift_down, shift_up, shift_left"]}
{"id": "C17", "title": "shift_right translates the set", "statement": "For delta in 0..=9, shift_right returns a valid bitboard containing exactly the squares of self moved by delta files right, those leaving the board being dropped.", "quantifier": "every valid bitboard and every delta in 0..=9", "why_tests_cant": "the shipped test checks two deltas on one board, and compares result with itself for the rest", "anchors": ["shogi_core/src/bitboard.rs: shift_right"]}
{"id": "C18", "title": "File patterns read and write exactly one file", "statement": "from_file_unchecked(f, pattern) contains (f, r) iff bit r-1 of pattern is set and nothing on other files; get_file_unchecked(f) returns the pattern of any bitboard's file f; they are inverse, and the nine files determine the board.", "quantifier": "every valid bitboard, every file 1..=9, every 9-bit pattern", "why_tests_cant": "get on arbitrary boards is over 2^81 values", "anchors": ["shogi_core/src/bitboard.rs: from_file_unchecked, get_file_unchecked"]}
{"id": "C19", "title": "Byte swapping is an involution commuting with bit operations", "statement": "swap_bytes twice is the identity in both directions; or/and/xor/andnot of byte-swapped boards are the byte-swapped results; the 128-bit value is the byte reversal.", "quantifier": "every pair of bitboards", "why_tests_cant": "2^162 pairs", "anchors": ["shogi_core/src/bitboard.rs: swap_bytes, ByteSwappedBitboard"]}
{"id": "C20", "title": "u128 representation round-trips", "statement": "from_u128_unchecked(bb.to_u128()) == bb for Bitboard and ByteSwappedBitboard; distinct boards have distinct representations.", "quantifier": "every bitboard", "why_tests_cant": "2^128 values", "anchors": ["shogi_core/src/bitboard.rs: to_u128, from_u128_unchecked"]}
{"id": "C21", "title": "Board and bitboards never disagree", "statement": "After any history of safe calls starting from empty() or startpos(), for every square: player_bitboard(c) contains it iff piece_at is a piece of c; piece_kind_bitboard(k) iff the piece has kind k; piece_bitboard(p) iff piece_at is p; occupied/vacant iff some/no piece is there; all of these are valid bitboards.", "quantifier": "every finite history of piece_set, make_move, make_compact_move, side_to_move_set, ply_set and hand assignments; every square, color, kind", "why_tests_cant": "redundant state must stay in sync over unbounded histories, including overwriting pieces and failed moves", "anchors": ["shogi_core/src/position.rs: PartialPosition::piece_set, make_move, player_bitboard, piece_bitboard, piece_kind_bitboard, occupied_bitboard, vacant_bitboard"]}
{"id": "C22", "title": "make_move succeeds exactly for moves that make sense", "statement": "make_move(Normal) returns Some iff from holds a piece of the side to move, the piece can promote if promotion is asked for, and to does not hold an own piece or a king; make_move(Drop) iff the piece belongs to the side to move, is one of the seven hand kinds, the hand has at least one, and to is vacant.", "quantifier": "every reachable position and every Move", "why_tests_cant": "an iff over all positions and moves", "anchors": ["shogi_core/src/position.rs: PartialPosition::make_move"]}
{"id": "C23", "title": "make_move does exactly what the move says and nothing else", "statement": "On success, a normal move empties from, puts the (promoted) piece on to, and adds the unpromoted captured kind to the mover's hand; a drop puts the piece on to and takes one from the hand; every other square, hand entry is unchanged; the side flips, ply advances by one (mod 65536) and last_move is the move.", "quantifier": "every reachable position and every accepted move", "why_tests_cant": "frame conditions over 81 squares and 14 hand entries of every position", "anchors": ["shogi_core/src/position.rs: PartialPosition::make_move, piece_set"]}
{"id": "C24", "title": "A rejected move changes nothing", "statement": "If make_move (or make_compact_move) of PartialPosition, Position or a rejected LegalityChecker::make_move reports failure, the position is identical to the one before, including moves() of Position.", "quantifier": "every reachable position and every rejected move", "why_tests_cant": "the early returns sit between mutations; must hold for all states", "anchors": ["shogi_core/src/position.rs: PartialPosition::make_move, Position::make_move, make_compact_move"]}
{"id": "C25", "title": "make_compact_move is make_move", "statement": "make_compact_move(m.into()) returns true iff make_move(m) returns Some, with the same resulting position.", "quantifier": "every position and move", "why_tests_cant": "equivalence of two entry points on all states", "anchors": ["shogi_core/src/position.rs: make_compact_move"]}
{"id": "C26", "title": "Turn, ply and last move track the number of accepted moves", "statement": "After a history of moves from a position with ply n, side_to_move has flipped once per accepted move, ply is (n + accepted) mod 65536, and last_move is the last accepted move (or the initial one if none was accepted).", "quantifier": "every sequence of moves of any length", "why_tests_cant": "unbounded sequences; ply wraps to 0 after 65535 moves, which ply_set itself forbids", "anchors": ["shogi_core/src/position.rs: make_move, ply, side_to_move, last_move, ply_set"]}
{"id": "C27", "title": "Pieces are conserved in play", "statement": "In every position reached from startpos by make_move, for each base kind the number of pieces on the board (promoted or not, both colors) plus in both hands is the initial 18/4/4/4/4/2/2/2; hence no hand count ever exceeds 18 and hand counters never wrap.", "quantifier": "every sequence of moves, accepted or not, of any length", "why_tests_cant": "a global invariant over unbounded histories", "anchors": ["shogi_core/src/position.rs: startpos, make_move", "shogi_core/src/hand.rs: added, removed"]}
{"id": "C28", "title": "King positions are tracked and kings are never captured", "statement": "In every position reached from startpos by make_move, each player has exactly one king and king_position(c) is its square. make_move never captures a king.", "quantifier": "every sequence of moves of any length", "why_tests_cant": "global invariant over unbounded histories", "anchors": ["shogi_core/src/position.rs: king_position, piece_set, make_move"]}
{"id": "C29", "title": "king_position is right after arbitrary editing", "statement": "king_position(c) is Some(s) iff s holds c's king, after any history of piece_set and moves with at most one king per side (the property a parser or editor would rely on).", "quantifier": "every history of piece_set and make_move", "why_tests_cant": "removing a king, or moving a second one, is a history effect", "anchors": ["shogi_core/src/position.rs: piece_set, king_position"]}
{"id": "C30", "title": "startpos is the shogi starting position, empty is empty", "statement": "startpos() has exactly the pieces of the opening array, empty hands, Black to move, ply 1, no last move, and consistent bitboards and king squares; empty() has none of these pieces.", "quantifier": "every square, kind and color", "why_tests_cant": "the precomputed bitboard constants must match the board array everywhere", "anchors": ["shogi_core/src/position.rs: PartialPosition::startpos, empty, STARTPOS_BLACK_BB, STARTPOS_WHITE_BB"]}
{"id": "C31", "title": "Position replays its own history", "statement": "For a Position made with startpos/arbitrary_position/default and played with make_move: initial_position is what it was created with, moves() are exactly the accepted moves in order, replaying moves() from initial_position reproduces inner(), and all observers equal those of inner().", "quantifier": "every sequence of moves of any length", "why_tests_cant": "unbounded histories", "anchors": ["shogi_core/src/position.rs: Position"]}
{"id": "C32", "title": "Game resolution holds the last set value", "statement": "After any sequence of resolve/unresolve on Game or PartialGame, resolution() is the last resolved value, or None if unresolved after it or never resolved; the inner position is never changed.", "quantifier": "every sequence of resolve/unresolve calls", "why_tests_cant": "unbounded call sequences", "anchors": ["shogi_core/src/position.rs: Game, PartialGame", "shogi_core/src/game_resolution.rs"]}
{"id": "C33", "title": "SFEN output is exactly the standard SFEN text and can be read back", "statement": "to_sfen writes board rows from rank 1 to 9, files 9 to 1, with maximal vacancy runs, side, hands in RBGSNLPrbgsnlp order, and ply in decimal; a reader of the SFEN grammar recovers exactly the board, side, hand counts and ply. Hence two positions have the same SFEN iff they agree on those.", "quantifier": "every reachable position (any board, any hand counts up to 255, any ply)", "why_tests_cant": "injectivity of a text format over all positions", "anchors": ["shogi_core/src/position.rs: to_sfen, to_sfen_owned", "shogi_core/src/hand.rs: ToUsi for [Hand; 2]", "shogi_core/src/piece.rs: ToUsi for Piece"]}
{"id": "C34", "title": "to_sfen_c stays in the documented 139 bytes in play", "statement": "For every position reached from startpos by make_move, to_sfen_c writes at most 139 bytes.", "quantifier": "every sequence of moves of any length", "why_tests_cant": "needs the conservation invariant plus an optimisation over all boards", "anchors": ["shogi_core/src/position.rs: to_sfen_c"]}
{"id": "C35", "title": "to_sfen_c stays in the documented 139 bytes for every position", "statement": "The documentation of to_sfen_c promises at most 139 bytes without restricting the position: the bound should hold for any position the safe API can build.", "quantifier": "every history of safe calls", "why_tests_cant": "a memory-safety bound over all positions", "anchors": ["shogi_core/src/position.rs: to_sfen_c, piece_set, hand_of_a_player_mut"]}
{"id": "C36", "title": "to_sfen_c writes exactly the SFEN text and a terminating NUL", "statement": "to_sfen_c(ptr) stores the bytes of to_sfen followed by one 0 byte at ptr..ptr+len, the text contains no 0 byte (so C reads back exactly the SFEN), and no byte outside that range changes.", "quantifier": "every reachable position, every initial memory, every ptr", "why_tests_cant": "frame condition over memory", "anchors": ["shogi_core/src/position.rs: to_sfen_c, Bridge"]}
{"id": "C37", "title": "USI text of moves, squares, pieces is unambiguous", "statement": "to_usi of a Square, PieceKind, Piece, Color, and Move produce exactly the USI text; reading it back recovers the value (for a drop, everything but the color, which USI omits); CompactMove prints like its Move.", "quantifier": "every Square, PieceKind, Piece, Move", "why_tests_cant": "injectivity over all pairs", "anchors": ["shogi_core/src/mv.rs: ToUsi for Move, CompactMove", "shogi_core/src/square.rs: ToUsi", "shogi_core/src/piece.rs: ToUsi", "shogi_core/src/piece_kind.rs: ToUsi", "shogi_core/src/color.rs: ToUsi"]}
{"id": "C38", "title": "Formatting fails iff the sink fails, after writing a prefix", "statement": "For every sink, to_usi/to_sfen return Err iff some write_str to the sink returned an error; no further write is attempted after an error, the strings offered to the sink up to that point concatenate to a prefix of the full text, and if no write fails it is the full text.", "quantifier": "every sink behaviour (any state machine, failing at any point) and every value", "why_tests_cant": "the failure can occur at any write: all crash points", "anchors": ["shogi_core/src/to_usi.rs: ToUsi", "shogi_core/src/common.rs: write_u8, write_u16, write_ascii_byte", "shogi_core/src/position.rs: to_sfen"]}
{"id": "C39", "title": "Numbers are written in canonical decimal", "statement": "The numbers in SFEN text (vacancy runs, hand counts, ply) are written in decimal with no leading zeros for every u8 and u16 value.", "quantifier": "every u8 and u16 value, every sink", "why_tests_cant": "relates to positional notation for all values and all sinks", "anchors": ["shogi_core/src/common.rs: write_u8, write_u16"]}
{"id": "C40", "title": "No panic and no undefined behaviour", "statement": "No safe function reached from valid values panics or executes an unreachable hint, out-of-range unchecked access or invalid transmute, in a debug or release build; unsafe functions likewise when their documented safety condition holds.", "quantifier": "every valid argument, every reachable position, both build profiles", "why_tests_cant": "absence of a behaviour over all inputs", "anchors": ["shogi_core/src/lib.rs (README: Panicking, Safety)", "shogi_core/src/*.rs"]}
{"id": "C41", "title": "Ord implementations are total orders", "statement": "With feature ord, cmp on every type is reflexive, antisymmetric, transitive and total, and partial_cmp = Some(cmp).", "quantifier": "all triples of values of each type", "why_tests_cant": "order laws quantify over triples", "anchors": ["shogi_core/src/annotated_derive.rs", "shogi_core/src/mv.rs: Ord for Move", "shogi_core/src/position.rs: impl_ord_with_fields"]}
{"id": "C42", "title": "Ord is consistent with Eq", "statement": "For every type, a.cmp(&b) == Equal iff a == b, as core::cmp::Ord requires.", "quantifier": "all pairs of values of each type, including positions with any history", "why_tests_cant": "the position types compare fewer fields than Eq; only a history argument tells whether that matters", "anchors": ["shogi_core/src/annotated_derive.rs", "shogi_core/src/position.rs: impl_ord_with_fields!(PartialPosition; side, ply, hands, board, last_move)"]}
{"id": "C43", "title": "Hash is consistent with Eq", "statement": "With feature hash, a == b implies that a and b feed identical data to any Hasher.", "quantifier": "all pairs of values of each type", "why_tests_cant": "universal over pairs; Hand has a hand-written PartialEq", "anchors": ["shogi_core/src/annotated_derive.rs: impl_hash_*", "shogi_core/src/hand.rs: PartialEq", "shogi_core/src/mv.rs: Hash for Move"]}
{"id": "C44", "title": "Position equality is observational equality", "statement": "Two positions reached from the same kind of start by make_move alone are == iff they agree on piece_at everywhere, hands, side, ply and last move.", "quantifier": "all pairs of histories", "why_tests_cant": "pairs of unbounded histories; redundant fields are compared by ==", "anchors": ["shogi_core/src/position.rs: derive(PartialEq) for PartialPosition"]}
{"id": "C45", "title": "LegalityChecker default methods honour the contract", "statement": "For every implementor: if status is not InProgress, is_legal is Err(GameFinished), is_legal_lite is false, all_legal_moves is empty, make_move is Err(GameFinished) and leaves the position alone; otherwise they are the partial versions on inner(). make_move returns Ok iff is_legal is Ok, and if the implementor keeps its promise (legal implies make_move succeeds) the position is advanced by exactly that move.", "quantifier": "every implementor (arbitrary functions), every position and move", "why_tests_cant": "universally quantified over user code", "anchors": ["shogi_core/src/legality.rs: LegalityChecker"]}
{"id": "C46", "title": "The no-std allocator hands out disjoint in-arena blocks under every schedule", "statement": "For any number of threads allocating concurrently under any interleaving (including spurious CAS failures), every non-null result is a block inside the arena, blocks of different successful calls never overlap, the arena offset is a multiple of the requested alignment, and null is returned when the alignment is above 4096 or the request cannot fit.", "quantifier": "every number of threads, every request sequence, every schedule", "why_tests_cant": "interleavings are unbounded", "anchors": ["shogi_core_c/src/no_std.rs: SimpleAllocator::alloc"]}
{"id": "C47", "title": "The no-std allocator returns aligned pointers", "statement": "GlobalAlloc requires that every non-null pointer returned by alloc(layout) is a multiple of layout.align().", "quantifier": "every placement of the arena static that its type permits, every layout", "why_tests_cant": "depends on link-time placement of the arena static", "anchors": ["shogi_core_c/src/no_std.rs: ARENA_BSS, SimpleAllocator::alloc"]}
{"id": "C48", "title": "no-std memory routines meet their C contracts", "statement": "memcpy copies n bytes between non-overlapping regions and changes nothing else; memset and __bzero fill n bytes with the low byte and change nothing else; memcmp returns 0 iff the n bytes agree, and otherwise has the sign of the first difference as unsigned bytes.", "quantifier": "every memory, every pointers and every length", "why_tests_cant": "unbounded lengths", "anchors": ["shogi_core_c/src/no_std.rs: memcpy, memset, memcmp, __bzero"]}
{"id": "C49", "title": "Generated constants are what their names say", "statement": "For every file 1..9 and rank letter A..I exactly one constant SQ_<file><rank> is generated and equals Square::new(file, rank); for each color and kind exactly one Piece constant is generated and equals Piece::new(kind, color); names are distinct.", "quantifier": "every generated constant", "why_tests_cant": "completeness of generated tables", "anchors": ["shogi_core/build.rs: generate_piece_consts, generate_square_consts"]}
{"id": "C50", "title": "Colour symmetry of move making", "statement": "Rotating the board by 180 degrees, swapping the colors of all pieces, hands and the side to move commutes with make_move: the mirrored move is accepted iff the original is, and leads to the mirrored position.", "quantifier": "every reachable position and every move", "why_tests_cant": "a metamorphic relation over all states", "anchors": ["shogi_core/src/position.rs: make_move", "shogi_core/src/square.rs: flip", "shogi_core/src/color.rs: flip"]}
{"id": "C51", "title": "Every setting can be set up", "statement": "From any PartialPosition, for every board (81 cells, each empty or any of the 28 pieces), every pair of hands with counts up to 255, every side to move and every ply number 1..65535, 85 editing calls (piece_set on each square, hand_of_a_player_mut for both players, side_to_move_set, ply_set) reach a position whose observers show exactly that setting, keep the last move, and whose king_position is the only king of a colour that has just one. A setting with ply 0 is reached too, through a wrapping move.", "quantifier": "all reachable positions, all boards, hands, sides, ply numbers", "why_tests_cant": "the settings number more than 29^81; the claim is surjectivity of a sequence of mutations on a bitboard-and-array representation", "anchors": ["shogi_core/src/position.rs:PartialPosition::piece_set", "shogi_core/src/position.rs:PartialPosition::hand_of_a_player_mut", "shogi_core/src/position.rs:PartialPosition::side_to_move_set", "shogi_core/src/position.rs:PartialPosition::ply_set"]}
{"id": "C52", "title": "The range of to_sfen", "statement": "A byte string is written by to_sfen for some reachable PartialPosition exactly if a strict SFEN reader accepts it, its ply is at most 65535 and its hand counts are at most 255, and the letters of its hands field go strictly forward in RBGSNLPrbgsnlp (or the field is a dash). Every accepted text with storable numbers is the SFEN of a reachable position up to the order of the hands field.", "quantifier": "all byte strings, all reachable positions", "why_tests_cant": "needs surjectivity onto an infinite grammar restricted by two numeric bounds: no finite set of texts shows that no other text is written or that none is missed", "anchors": ["shogi_core/src/position.rs:PartialPosition::to_sfen", "shogi_core/src/position.rs:PartialPosition::piece_set", "shogi_core/src/hand.rs:Hand"]}
{"id": "C53", "title": "A move can be taken back", "statement": "After an accepted move, putting back the captured and the moved piece, the mover's hand, the side to move and the ply number with the editing calls restores everything the observers show except last_move, which stays the move taken back; in play this includes king_position. Conversely the position after a move and the contents of the two squares before it determine the board, hands, side and ply before it.", "quantifier": "all reachable (played) positions, all moves", "why_tests_cant": "inverse-of-mutation claim over all positions and moves, including stale king squares", "anchors": ["shogi_core/src/position.rs:PartialPosition::make_move", "shogi_core/src/position.rs:PartialPosition::piece_set", "shogi_core/src/position.rs:PartialPosition::king_position"]}
{"id": "C54", "title": "Order of values", "statement": "Every Ord impl is the dictionary order of a key: colors, kinds, resolutions by their number; squares by file then rank; pieces by color then kind; moves: board moves by start, target, promotion, then drops by piece, target; compact moves by high then low byte; hands by pawns, lances, ...; bitboards by membership of squares in a fixed sequence; options None first; positions by side, ply, hands, pieces on 1A..9I, last move; games by initial position, current position, moves, resolution.", "quantifier": "all pairs of valid values, reachable positions, games", "why_tests_cant": "an order is a relation on all pairs; wrong priorities show only on particular pairs", "anchors": ["shogi_core/src/annotated_derive.rs", "shogi_core/src/mv.rs:73-112"]}
{"id": "C55", "title": "Hashed data identifies values", "statement": "The sequence of calls a Hash impl makes on the hasher determines the value (for positions: all that is shown but the king positions), even when more data is hashed after it, and equal values make equal calls.", "quantifier": "all pairs of valid values, reachable positions, games, all continuations", "why_tests_cant": "collisions are a property of pairs; the space of pairs is huge", "anchors": ["shogi_core/src/annotated_derive.rs:8-43", "shogi_core/src/mv.rs:114-131", "shogi_core/src/position.rs:54,95,366,857"]}
{"id": "C56", "title": "The C header matches the library", "statement": "include/shogi_core.h declares exactly the exported functions, each once; its enumeration constants are the discriminants, its macros the associated constants; PartialPosition has the same size, alignment and field offsets on both sides, with fields aligned and not overlapping.", "quantifier": "all 84 functions, all constants, all targets (alignment 1, 2, 4 or 8 of uint64_t)", "why_tests_cant": "c_tests calls five functions on one target; a stale generated header still compiles", "anchors": ["include/shogi_core.h", "cbindgen.toml", "shogi_core/src/position.rs:375-385"]}
{"id": "C57", "title": "C calls agree with Rust", "statement": "Every function declared in the header can be called: argument and result types are complete and are passed as the Rust function expects them.", "quantifier": "all 84 functions, all targets", "why_tests_cant": "a declaration that nothing calls is never compiled into a call", "anchors": ["include/shogi_core.h:1019,1083", "shogi_core/src/square.rs:155,203"]}
{"id": "C58", "title": "Positions in C memory", "statement": "A PartialPosition stored at an aligned address shows its fields at the header's offsets, reads back as the same value and changes no byte outside the struct; copying its bytes copies the position; reading is defined exactly if the address is aligned and the side byte is 1 or 2; memcmp 0 implies equality, but padding makes the converse false.", "quantifier": "all reachable positions, addresses, memories, padding values, byte orders, alignments of u64", "why_tests_cant": "tests run on one target, and padding bytes are whatever the compiler leaves", "anchors": ["shogi_core/src/position.rs:365-385", "include/shogi_core.h"]}
{"id": "C59", "title": "C programs are safe", "statement": "A C program using any number of positions and 139-byte text buffers through startpos, make_compact_move, assignment, the queries and to_sfen_c, each position initialised before use, has no undefined behaviour and no panic; results and memory are those of the program over abstract positions, and nothing outside its variables changes.", "quantifier": "all programs, all layouts of the variables in memory, all targets", "why_tests_cant": "there are infinitely many call sequences and memory layouts; out-of-bounds writes often go unnoticed", "anchors": ["shogi_core/src/position.rs:483-853", "c_tests/position.c"]}
{"id": "C60", "title": "Heap positions: no dangling use, no leak", "statement": "A C program mixing local PartialPositions and heap Positions (startpos, destruct, pointer copies, moves, queries, to_sfen_c, reading through Position_inner and Position_initial_position) that uses pointers only between creation and destruction has no undefined behaviour; live objects and results are those of the abstract program; memory given back is exactly that of the destructed objects. Any use after destruction or of an unset pointer is undefined.", "quantifier": "all programs, all allocators keeping their contract, all layouts of Position, all targets", "why_tests_cant": "the only C test creates and destroys one object", "anchors": ["shogi_core/src/position.rs:98-141", "shogi_core/src/position.rs:329-360", "include/shogi_core.h"]}
{"id": "C61", "title": "The C test program passes", "statement": "main of c_tests/position.c returns 0: both strcmp assertions hold, buffers are not overrun, all memory is given back.", "quantifier": "all targets, memory contents, placements of variables, literals and heap blocks", "why_tests_cant": "a run shows one target and one memory layout", "anchors": ["c_tests/position.c:6-20"]}
{"id": "C62", "title": "The value functions in the terms of C", "statement": "Every exported function on squares, pieces, moves, hands and bitboards, called from C with any arguments of the declared types, computes what plain arithmetic on the C integers says, without panic or undefined behaviour, touching only the object it is given a pointer to; its result has the declared type. Integers that are no value of the Rust type are undefined behaviour. Programs of such calls and copies compute what the arithmetic says.", "quantifier": "all 48 functions, all arguments, all memories, both profiles, both byte orders, all alignments, all programs", "why_tests_cant": "the C test calls two of these functions", "anchors": ["shogi_core/src/bitboard.rs", "shogi_core/src/hand.rs", "shogi_core/src/mv.rs", "shogi_core/src/piece.rs", "shogi_core/src/piece_kind.rs", "shogi_core/src/square.rs", "shogi_core/src/color.rs", "include/shogi_core.h"]}
{"id": "C63", "title": "The bundled allocator never uses memory twice", "statement": "Over the whole life of a no-std program, under every schedule of threads, spurious failures and deallocations, the blocks handed out are disjoint and have at most 128 KiB together; a size once refused is refused for ever; requests of one size that is a multiple of its alignment are served exactly 128 KiB / size times; every call is answered after at most 131073 rounds of its own that do not fail spuriously.", "quantifier": "all usize widths above 17, all schedules of any number of threads, all layouts", "why_tests_cant": "no test runs the no-std allocator, let alone to exhaustion", "anchors": ["shogi_core_c/src/no_std.rs"]}
{"id": "C64", "title": "C programs with the no-std library", "statement": "A C program linked with the no-std library returns exactly if the bundled allocator serves one block per Position and one per growth of a list of moves; then results and memory, including the lists of moves, are those of the program over abstract positions, and there is no undefined behaviour. Misuse of pointers is undefined behaviour, and so is every program if the arena is not aligned. Destructing positions does not allow to create more of them, and a list of moves is limited.", "quantifier": "all programs, memories, layouts of Position and Move, growth policies of Vec, padding, profiles, byte orders, alignments", "why_tests_cant": "the C test creates a single position and makes no move", "anchors": ["shogi_core_c/src/no_std.rs", "shogi_core/src/position.rs"]}
{"id": "C65", "title": "The crate's own tests pass", "statement": "Each #[test] function of shogi_core (but the one about the layout of Option) and each example in its documentation returns without panic or undefined behaviour, in debug and release builds.", "quantifier": "35 unit tests and 50 documentation examples, both profiles", "why_tests_cant": "The tests are run on the model, not on the code: that they pass validates the model against behaviour the authors have checked.", "anchors": ["shogi_core/src/square.rs:311-492", "shogi_core/src/bitboard.rs:604-920", "shogi_core/src/position.rs:866-918", "shogi_core/src/mv.rs:328-394"]}
{"id": "C66", "title": "C programs over the whole library are safe and compute what the abstract program computes", "statement": "A C program with branches and loops that calls any exported function, with results flowing through variables into later arguments, with hands, bitboards and positions in its variables and Position objects on the heap, has no undefined behaviour at any point of its run while the same program over integers, sets of squares and abstract positions keeps to the contracts; it panics only if the allocator has no block. Its variables, objects and texts are those of the abstract program, no other memory changes, and a program that destructs every object gives all memory back. Using a dangling or unset pointer is undefined behaviour. Every exported function except those on games can occur.", "quantifier": "all programs, all lengths of runs, both profiles, all target layouts, padding, byte orders and allocators within their contract", "why_tests_cant": "the repository has one fixed C test program; the set of C programs and of memory layouts is unbounded", "anchors": ["shogi_core_c/src", "include/shogi_core.h", "shogi_core/src/position.rs:98-360", "shogi_core/src/position.rs:483-853"]}
{"id": "C67", "title": "Move making does not know geometry", "statement": "For every permutation of the 81 squares and every history of edits and moves, the history with all squares permuted returns the same flags and reaches the permuted position; make_move and the edits never treat any square specially.", "quantifier": "all permutations of the squares, all pairs of reachable positions related by it, all histories, both build profiles", "why_tests_cant": "There are 81! permutations and unboundedly many histories; a special case for one square would need exactly that square in a test.", "anchors": ["shogi_core/src/position.rs:582-611", "shogi_core/src/position.rs:708-752", "shogi_core/src/position.rs:762-765"]}
{"id": "C68", "title": "Independent changes commute", "statement": "Two edits which touch different parts of a position give the same position (every field) in either order, an edit makes an earlier edit of the same thing pointless, and a move commutes with edits of squares and hands it does not touch; kings are the exception, because king_position remembers the last king put, and this exception is needed.", "quantifier": "all reachable positions, all pairs of valid calls, both build profiles", "why_tests_cant": "Redundant state (bitboards, king squares) could depend on the order of edits in rare combinations only; there are more pairs of calls and positions than can be tried.", "anchors": ["shogi_core/src/position.rs:505-551", "shogi_core/src/position.rs:582-611", "shogi_core/src/position.rs:708-752"]}
{"id": "C69", "title": "The bitboards count up", "statement": "In every reachable position the counts of the bitboards add up: players to occupied, kinds to occupied, colours of a kind to the kind, kinds of a player to the player, occupied and vacant to 81. In play, occupied squares and hands make 40, each player has one king on the board, and each kind with its promotion and the hands make the full set.", "quantifier": "all reachable positions; all positions reached by moves from the starting position", "why_tests_cant": "Requires all histories; redundant bitboards can drift apart after specific sequences of captures, promotions and drops.", "anchors": ["shogi_core/src/position.rs:618-667", "shogi_core/src/bitboard.rs", "shogi_core/src/position.rs:708-752"]}
{"id": "C70", "title": "C programs that pass a static check are safe", "statement": "A checker that looks only at the text of a C program and the types in the interface (ranges of integers, definite assignment, tests against zero before use, and one owner for each position on the heap) is sound: an accepted program, with any branches and loops, never passes an argument that breaks a contract, never uses a dangling pointer, has no undefined behaviour, panics only when memory runs out, and its variables have the types found; if no owner is left at the end, all memory has been given back.", "quantifier": "all programs, profiles, layouts, byte orders, allocators and numbers of steps", "why_tests_cant": "There are infinitely many programs and executions; the checker has to be right for all of them.", "anchors": ["include/shogi_core.h", "shogi_core_c/src/lib.rs", "shogi_core/src/square.rs", "shogi_core/src/position.rs"]}
{"id": "C71", "title": "Threads do not disturb each other", "statement": "C programs over the library run by any number of threads, each on variables and pointers of its own, in one memory with one allocator and in any schedule, have no undefined behaviour as long as each program by itself keeps to the contracts, which the static check ensures; at any moment each thread has exactly what it would have after as many steps alone, so the schedule makes no difference; no two threads own a common byte, each step reads and writes only the bytes of its thread, and when all objects are destructed all memory is given back. Taking programs step by step is the same as running them.", "quantifier": "all programs, schedules, numbers of threads, profiles, layouts, byte orders and allocators", "why_tests_cant": "The schedules are exponentially many and races show only in some of them; a hidden shared byte would be found by no single run.", "anchors": ["include/shogi_core.h", "shogi_core_c/src/lib.rs", "shogi_core/src/position.rs", "shogi_core/src/square.rs"]}
{"id": "C72", "title": "Legal games of shogi can be played on the library, and a checker of the rules can be written against it", "statement": "Let the rules of shogi be stated over a plain board (how pieces move, promotion zone, pieces that could never move again, two pawns on a file, check, the pawn drop that mates). Then a move by which a piece goes where it may go is accepted by make_move and shows the board the rules lead to, as long as the opponent's king is not in check; every legal game from the starting position is accepted move by move, and in all its positions the player who has just moved is not in check, no piece is stuck and no player has two unpromoted pawns on a file. An implementor of LegalityChecker that reads the position through the public functions and decides by these rules keeps the promise of the trait (what it calls legal succeeds), answers Ok exactly for the legal moves, lists each of them once, answers with the right bitboards, and a list of moves played through it from the starting position meets with no error if and only if it is a legal game. make_move itself does not check the rules: for each kind of illegal move there is one it accepts.", "quantifier": "for all games, reachable positions, moves, squares, pieces and build profiles", "why_tests_cant": "the number of legal games is astronomical and each step involves every square of the board", "anchors": ["shogi_core/src/position.rs", "shogi_core/src/legality.rs", "shogi_core/src/illegal_move_kind.rs"]}
{"id": "C73", "title": "Attacks worked out on bitboards are those of the rules", "statement": "A program that uses the bitboards of a position and the shifts, masks and file patterns of the library, without looking at single squares, finds in every reachable position exactly the squares each player attacks, whether a king is in check, the squares the piece on a square can go to, and the squares a pawn can be dropped on, as the rules of shogi say. The shifts, with the result of shift_right masked, move every member by one step and nothing else, distribute over union and intersection, add up, and are turned into the opponent's by flip. Without the mask, squares are miscounted and pop panics.", "quantifier": "for all reachable positions, players, squares, valid bitboards, shifts and build profiles", "why_tests_cant": "There are 2^81 bitboards and the positions cannot be enumerated; shifts go wrong at the edges and at the border of the two words only.", "anchors": ["shogi_core/src/bitboard.rs", "shogi_core/src/position.rs"]}
{"id": "C74", "title": "The record suffices for the repetition rule, and == does not find repetitions", "statement": "However a Position was made and whatever was played on it by make_move, an implementor of LegalityChecker that plays the recorded moves again from initial_position tells how the game stands under the rules of repetition and perpetual check: the fourth occurrence of board, hands and side to move ends the game, as a loss for a player who gave check all the time in between and as a draw otherwise. Played through such a checker a list of moves meets with no error if and only if each is legal and made while the game goes on, and there is a bound on the length of all such games. The equality and order of positions do not find repetitions, as the ply number always differs within 65535 moves; the SFEN text with the ply number set to one does.", "quantifier": "for all ways to make a Position, initial positions with at most 254 pieces of a kind, lists of valid moves and compact moves, and build profiles", "why_tests_cant": "The rule depends on the whole history of a game; histories are unbounded, and that no game goes on for ever cannot be observed.", "anchors": ["shogi_core/src/legality.rs", "shogi_core/src/position.rs"]}
{"id": "C75", "title": "The documented contract of LegalityChecker", "statement": "Whoever implements LegalityChecker as its documentation asks gets from the provided methods answers that agree with each other: no move is legal when the game is over, a legal move succeeds, make_move never panics and changes the position exactly on Ok. A program that walks the bitboards of normal_from_candidates and drop_candidates with the iterator finds every legal move exactly once without an allocator. The contract can be kept: implementors that go by the rules of shogi, with and without repetition, keep it. It does not say what the rules are: one that accepts whatever make_move accepts keeps it too.", "quantifier": "for all implementors that keep the contract, all reachable positions, valid moves and build profiles", "why_tests_cant": "The trait has no implementor in the repository, and the statement is about all of them.", "anchors": ["shogi_core/src/legality.rs", "shogi_core/src/bitboard.rs"]}
{"id": "C76", "title": "The Debug texts tell values apart", "statement": "The derived Debug implementation of each of the 21 types that have one writes, with {:?} and with {:#?}, exactly the text made of the names of the type, variant and fields and the decimal numbers, to every sink, reporting errors of the sink and nothing else. Two values have the same text exactly if == holds of them, for all positions and games a client can have. The two formats differ in blanks, line ends and the comma before a closing bracket only.", "quantifier": "for all values of the types, both formats and all sinks", "why_tests_cant": "That no two positions share a text is a statement about pairs of an astronomical number of values, and about sinks that fail anywhere.", "anchors": ["shogi_core/src/position.rs", "shogi_core/src/square.rs", "shogi_core/src/piece.rs", "shogi_core/src/mv.rs", "shogi_core/src/hand.rs", "shogi_core/src/bitboard.rs", "shogi_core/src/color.rs", "shogi_core/src/piece_kind.rs", "shogi_core/src/game_resolution.rs", "shogi_core/src/illegal_move_kind.rs", "shogi_core/src/legality.rs"]}
{"id": "C77", "title": "Legality by the rules does not depend on the side of the table or of the board", "statement": "If one reachable position shows the other turned round with the players exchanged, or reflected from left to right, an implementor of LegalityChecker that goes by the rules of shogi answers the corresponding questions on both alike: the same Ok or the same error for each move, the same status with the players exchanged, the corresponding lists of moves, and bitboards of which one is the library's flip of the other. Whole games played through the checker, with the rule of repetition, give the same answers and records and end alike.", "quantifier": "for all pairs of reachable positions of which one is the image of the other, all moves, squares, pieces and games", "why_tests_cant": "The symmetry is a statement about pairs of positions and games of any length; tests that compare a few mirrored positions do not meet each combination of kinds, squares, players, promotions and hands.", "anchors": ["shogi_core/src/legality.rs", "shogi_core/src/position.rs", "shogi_core/src/bitboard.rs", "shogi_core/src/square.rs"]}
{"id": "C78", "title": "The record of a game can be written as USI text and read back through the API", "statement": "Writing the initial position with to_sfen_owned and the moves with to_usi_owned, and reading such a text with PartialPosition::empty, piece_set, the setters of hands, side and ply, arbitrary_position and make_move, gives back the same Position after any calls of make_move, if no move was made on the initial position, its ply is not 0 and its kings are unique and found. The reader built on the API panics on no text at all. What it accepts is written and read again as the same Position, and its moves are exactly those make_move accepts one after the other. The last move of an initial position on which moves were made is not in the text and is lost.", "quantifier": "for all byte strings, all reachable initial positions and all sequences of calls, in both build profiles", "why_tests_cant": "Round trips of whole games combine the writers of positions and moves with setting up and playing; tests try a few games and a few malformed texts, not all byte strings or all histories.", "anchors": ["shogi_core/src/position.rs", "shogi_core/src/to_usi.rs", "shogi_core/src/mv.rs", "shogi_core/src/hand.rs"]}
{"id": "C79", "title": "Which documented safety conditions are needed", "statement": "For each unsafe function that takes numbers, what follows from breaking the condition in its Safety section. The unchecked conversions to Square, PieceKind, GameResolution and IllegalMoveKind are undefined for every other number. Bitboard::from_u128_unchecked always returns; walking through the board is undefined exactly for numbers of more than 82 bits in a build without debug assertions, and stops with a panic if bit 63 is set in a build with them. from_file_unchecked with a pattern of more than nine bits leads to undefined behaviour on file 9 only. get_file_unchecked is never undefined. A shift by more than nine squares panics in a build with debug assertions; with neither these nor overflow checks shift_up, shift_left and shift_right still return valid boards and only shift_down can make a board whose iteration is undefined.", "quantifier": "for all pairs of 64-bit words, all numbers and all four combinations of overflow checks and debug assertions", "why_tests_cant": "A test that breaks a safety condition has undefined behaviour itself, and the boards and numbers are too many to try.", "anchors": ["shogi_core/src/bitboard.rs", "shogi_core/src/square.rs", "shogi_core/src/piece.rs", "shogi_core/src/piece_kind.rs", "shogi_core/src/game_resolution.rs", "shogi_core/src/illegal_move_kind.rs"]}
{"id": "C80", "title": "What a build's overflow checks and debug assertions change", "statement": "For every function of the API and any arguments, valid or not, a build with more of the two kinds of checks panics or does exactly what the build with fewer does, undefined behaviour included; the same for whole Rust programs, C programs with one thread or many, and programs linked with the no-std library. For programs that respect the documented safety conditions overflow checks change nothing. Debug assertions change nothing if shift_right is used only where its result is a valid bitboard; otherwise the first difference is a pop of a bitboard whose first word is exactly bit 63. Reachable positions, the texts handed to any fmt::Write, the bytes of C programs, the allocator and memcmp are the same in all four builds.", "quantifier": "for all pairs of the four combinations of overflow checks and debug assertions, all arguments, programs, schedules and sinks", "why_tests_cant": "Tests run in one profile, usually the one with all checks; that the others behave alike is a statement about all programs and pairs of builds.", "anchors": ["shogi_core/src/bitboard.rs", "shogi_core/src/square.rs", "shogi_core/src/position.rs", "shogi_core/src/legality.rs", "shogi_core/src/to_usi.rs", "shogi_core_c/src/lib.rs"]}
{"id": "C81", "title": "Implementors of LegalityChecker with a state and with provided methods of their own", "statement": "The provided methods ask status exactly once and first; only while the game is in progress do they ask the method for inner(), exactly once, with the state status left; make_move makes the calls of is_legal and no others. For an implementor that always answers, calls only moves legal that can be made and leaves make_move in place, any sequence of calls on one position never panics, keeps the initial position, records exactly the moves answered with Ok, and the record replays to the position reached; queries leave the position alone. If the state never shows in the answers, every session gives the answers, positions and panics of the implementor without the state. Refuted: that make_move makes what is_legal has just called legal, and that the record is right when make_move is replaced.", "quantifier": "for all types of state, all implementors of the trait, own provided methods included, all sessions, positions and builds", "why_tests_cant": "The trait is open: implementors are written by others, with caches and counters behind &self; tests exercise at most a few of them.", "anchors": ["shogi_core/src/legality.rs", "shogi_core/src/position.rs"]}
{"id": "C82", "title": "Threads of C programs linked with the no-std library", "statement": "Any number of threads, each making any calls on its own variables and pointers, share the 128 KiB arena of the bundled allocator. In any order of the calls there is no undefined behaviour if each thread by itself uses its pointers rightly. A call is answered, as over abstract positions, exactly if the arena has what it asks for at that moment; otherwise its thread hangs for good in the endless loop of the error handler, the others are not disturbed, and the request could not be served at any later time either. A thread that hangs in Position_make_compact_move leaves in memory a position in which the move is made and a list in which it is missing. No two threads ever own a byte in common and memory nobody owns does not change. Once a thread hangs in Position_startpos nobody creates a position again. If the requests of all threads plus the worst cost of alignment fit into the arena, no order makes any thread hang. Refuted: that which threads hang does not depend on the order of the calls.", "quantifier": "for all numbers of threads, programs, schedules, layouts, word sizes, byte orders and builds", "why_tests_cant": "Schedules are chosen by the system and cannot be enumerated; running out of the arena depends on the order of all calls of all threads.", "anchors": ["shogi_core_c/src/no_std.rs", "shogi_core_c/src/lib.rs", "shogi_core/src/position.rs"]}
{"id": "C83", "title": "Threads linked with the no-std library, interrupted inside their calls", "statement": "The threads of C82 are interrupted inside their calls: before every compare_exchange_weak of the allocator's fetch_update and after the last one, and the exchange may fail for no reason any number of times. There is still no undefined behaviour, and the calls are atomic: results, hanging threads and the amount left are those of a run of whole calls in the order in which they get their memory, find none or come back without asking. At every moment memory shows every thread's state, inside a call that before the call but for the move already made in the position; a block handed out and not yet used lies in the arena at its alignment, belongs to no thread, and is untouched. If the requests with the worst cost of alignment fit, no interruption makes a thread hang. No thread waits for another: three undisturbed steps end a call or show that there is no memory. Refuted: that the thread that asked first is served first.", "quantifier": "for all numbers of threads, programs, interruptions, spurious failures, layouts, word sizes, byte orders and builds", "why_tests_cant": "A test cannot place the interruptions between the load and the exchange nor make the exchange fail; there are infinitely many ways.", "anchors": ["shogi_core_c/src/no_std.rs", "shogi_core_c/src/lib.rs", "shogi_core/src/position.rs"]}
{"id": "C84", "title": "Threads linked with the no-std library on weakly ordered memory", "statement": "The threads of C83 run on a machine where a load of the allocator's atomic, or an exchange that fails, may read any earlier value that is not older than what the thread has read or written before, as with Relaxed (a failure for a reason having read another value than the expected one). There is still no undefined behaviour and the calls are atomic in the order in which they get their memory, find none or come back without asking; the values of the counter never go up. A byte that one thread holds at some moment is never held by another later, and a step of a thread uses only its own bytes: with the blocks of all other threads taken out of memory it does the same. So there is no data race, and no order of writes between threads can be seen. If every load reads the newest value, the runs are those of C83. A thread left alone comes to the end of its call, or hangs for lack of memory, after at most two steps more than the counter has had values, unless the weak exchange fails for no reason. Refuted: that the three steps of C83 are enough.", "quantifier": "for all numbers of threads, programs, interruptions, spurious failures and old values read, layouts, word sizes, byte orders and builds", "why_tests_cant": "On the machines tests run on old values are rarely or never read; which ones a thread may read differs between processors.", "anchors": ["shogi_core_c/src/no_std.rs", "shogi_core_c/src/lib.rs", "shogi_core/src/position.rs"]}
{"id": "C85", "title": "A bitboard as an iterator", "statement": "Bitboard defines next and size_hint; all other methods of core::iter::Iterator on it are the provided ones. Every loop over a bitboard (try_fold, for) goes through its squares from the least up, whatever the body does, and after a break exactly the squares not come to are left. fold, collect, last, max, min give what the list of squares gives, count the number that Bitboard::count gives; any, all, find, position and nth answer for the list and leave the squares after the one that decided. Adding the squares one after the other to the empty bitboard gives the bitboard back. Iterator::eq is ==, Iterator::cmp is the order of a dictionary on the lists. map, filter, enumerate, take, skip, zip and chain, one on top of the other in any number, deliver the lists their names say. Refuted: that Iterator::cmp, which a.cmp(b) means on two bitboards, is Ord::cmp.", "quantifier": "for all valid bitboards, closures, predicates, numbers, stacks of adaptors, word sizes and builds", "why_tests_cant": "There are 2^81 bitboards and arbitrarily many closures and adaptor stacks; the repository's tests call next only.", "anchors": ["shogi_core/src/bitboard.rs"]}
{"id": "C86", "title": "The crates as packages", "statement": "With every choice of the five features of shogi_core, everything that is compiled refers only to what is compiled, and nothing is defined twice. Asking for more features takes nothing away and breaks no program that uses the crate, unless the program implements LegalityChecker; an implementation of LegalityChecker has to give exactly the six methods on partial positions without alloc, and with alloc these, status and all_legal_moves_partial, and may give four more, so no implementation compiles both with alloc and without it. Which exported type implements which of Eq, PartialEq, Ord, PartialOrd, Clone, Copy, Hash, Default and Debug is determined by the features and by three exceptions: OptionPieceKind, the positions, the types on the heap. The default features are alloc and std; the unit tests need alloc. Of the public unsafe items exactly seven do not have _unchecked in their names. The C library has Position exactly with alloc or std, always exactly one panic handler, and exactly one allocator whenever it has Position; its own are used exactly without std, and an unstable compiler feature exactly with its own allocator.", "quantifier": "all choices of features of both crates, all programs that refer to items and implement traits of the crate, all exported types and nine traits, all public unsafe items", "why_tests_cant": "Tests run with one choice of features; there are 32, and the programs that use the crate are not part of it. Implementations of LegalityChecker that stop compiling are in other people's crates.", "anchors": ["shogi_core/Cargo.toml", "shogi_core_c/Cargo.toml", "shogi_core/README.md", "shogi_core/src/lib.rs", "shogi_core/src/annotated_derive.rs", "shogi_core/src/legality.rs", "shogi_core/src/to_usi.rs", "shogi_core/src/position.rs", "shogi_core/src/piece_kind.rs", "shogi_core_c/src/lib.rs", "shogi_core_c/src/no_std.rs"]}
{"id": "C87", "title": "Values of the crate as keys of the standard maps", "statement": "HashMap and BTreeMap reach the crate only through ==, Hash::hash and Ord::cmp. For every type but positions and games, after any calls on a map get, insert and remove answer with what was inserted last under this very value, and keys lists each key that has a value once, for a HashMap with any hasher and any growth of its table, and for a BTreeMap of any shape, there in the order of cmp. Positions and games with any history are as good keys of a HashMap; of a BTreeMap those reached by play from the starting position are. With any history a BTreeMap takes positions for one another exactly if they show the same but for the king positions. Counting with a HashMap counts how often each key came. With positions as keys it finds no repetition in a game of fewer than 65536 moves; with SFEN texts whose ply is set to one it counts how often the same board, hands and side to move came. Refuted: that all positions and games are good keys of a BTreeMap.", "quantifier": "for all sequences of calls, types of values, hashers, growths of tables, shapes of trees, values, reachable positions, games and builds", "why_tests_cant": "Whether a map loses or confuses keys depends on the hasher, the number of buckets, the shape of the tree and the whole history of calls; a comparison that takes two different positions for one another shows only if both are put into one map.", "anchors": ["shogi_core/src/annotated_derive.rs", "shogi_core/src/mv.rs", "shogi_core/src/hand.rs", "shogi_core/src/position.rs"]}
{"id": "C88", "title": "Programs that search the tree of games with the library", "statement": "A program that asks any LegalityChecker that goes by the rules for the legal moves, clones the position, calls make_move and looks further is right. Counting the games of n moves gives the number of different legal games of n moves, added up in 64 bits; if it does not fit, the sum panics or wraps by the build. A solver finds a move exactly if the player on turn can win by force in n moves, and the move it finds is legal and wins against every reply. Played against any opponent who makes legal moves, it wins in at most n moves, every call of make_move succeeds, and the last status is that the player has won. Never can a player win by force whose every move lets the opponent win by force.", "quantifier": "for all depths, implementors that go by the rules, opponents, builds, and reachable positions in which the player who has just moved is not in check and no kind has more than 254 pieces", "why_tests_cant": "The number of positions grows exponentially with the depth; one wrong successor deep in the tree may change an answer for one position in millions.", "anchors": ["shogi_core/src/position.rs", "shogi_core/src/legality.rs", "shogi_core/src/bitboard.rs"]}
{"id": "C89", "title": "Searching in one position by making moves and taking them back", "statement": "A program that keeps one PartialPosition, makes a legal move, looks further and takes the move back by piece_set, the hand setter, side_to_move_set and ply_set answers as the program that clones the position: the solver finds the same move and the counter the same number (or both panic or wrap). No edit is refused, and in the end everything the methods tell is as before but for the last move. It needs that king_position names the kings, which it does in play, and that the plies stay below 65536.", "quantifier": "for all depths, implementors of LegalityChecker that go by the rules, builds, and reachable positions with a ply of at least one in which the player who has just moved is not in check, no kind has more than 254 pieces and king_position names the kings", "why_tests_cant": "One field that is not restored on one kind of move deep in the tree changes the answers for positions searched after it, and which those are depends on the order of the search.", "anchors": ["shogi_core/src/position.rs", "shogi_core/src/legality.rs", "shogi_core/src/hand.rs"]}
