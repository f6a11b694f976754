(** Model of the two crates as packages: the features of the two [Cargo.toml]s, what of the sources is there under which [cfg], and what
    it refers to. Functions that are always there and refer only to what is always there are left out. *)
From Verif Require Export Machine.
Open Scope string_scope.

(** ** Features *)
(** /repo/shogi_core/Cargo.toml:19-25 ([default] is the list [["std"]]) *)
Inductive feature := FAlloc | FExperimental | FHash | FOrd | FStd.
(** the features somebody asks for *)
Record selection := Selection { s_alloc : bool; s_experimental : bool; s_hash : bool; s_ord : bool; s_std : bool }.
(** the features that are on: [std = ["alloc"]] (/repo/shogi_core/Cargo.toml:25) *)
Definition resolve (F : selection) : selection := Selection (s_alloc F || s_std F) (s_experimental F) (s_hash F) (s_ord F) (s_std F).
Definition is_on (F : selection) (f : feature) : bool :=
  match f with FAlloc => s_alloc F | FExperimental => s_experimental F | FHash => s_hash F | FOrd => s_ord F | FStd => s_std F end.
Definition default_features : selection := Selection false false false false true.

(** [#[cfg(feature = "...")]], one around the other *)
Inductive cfg := Always | Feature (f : feature) | Both (c d : cfg).
Fixpoint cfg_holds (F : selection) (c : cfg) : bool :=
  match c with Always => true | Feature f => is_on F f | Both c d => cfg_holds F c && cfg_holds F d end.

(** ** Types and traits *)
(** /repo/shogi_core/src/lib.rs:29-91: the types that are exported *)
Inductive ty :=
| TColor | TSquare | TPieceKind | TPiece | TMove | TCompactMove | THand | TBitboard | TByteSwappedBitboard | TGameResolution | TPartialGame
| TPartialPosition | TGame | TPosition | TIllegalMoveKind | TPositionStatus | TOptionPieceKind | TOptionPiece | TOptionSquare
| TOptionCompactMove | TOptionGameResolution | TResultUnitIllegalMoveKind.
Definition all_types : list ty :=
  [TColor; TSquare; TPieceKind; TPiece; TMove; TCompactMove; THand; TBitboard; TByteSwappedBitboard; TGameResolution; TPartialGame;
   TPartialPosition; TGame; TPosition; TIllegalMoveKind; TPositionStatus; TOptionPieceKind; TOptionPiece; TOptionSquare;
   TOptionCompactMove; TOptionGameResolution; TResultUnitIllegalMoveKind].
(** the [cfg] of a type: /repo/shogi_core/src/position.rs:11, 98 and lib.rs:62 *)
Definition ty_cfg (t : ty) : cfg := match t with TGame | TPosition => Feature FAlloc | _ => Always end.
(** the types of the crate in its fields: mv.rs:9-24, position.rs:14-17, 58-61, 101-105, 376-385 *)
Definition fields (t : ty) : list ty :=
  match t with
  | TMove => [TSquare; TPiece]
  | TPartialGame => [TPartialPosition; TOptionGameResolution]
  | TPartialPosition => [TColor; THand; TOptionPiece; TBitboard; TOptionCompactMove; TOptionSquare]
  | TGame => [TPosition; TOptionGameResolution]
  | TPosition => [TPartialPosition; TMove]
  | _ => []
  end.
Inductive trait := TrEq | TrPartialEq | TrOrd | TrPartialOrd | TrClone | TrCopy | TrHash | TrDefault | TrDebug.
(** [#[derive(...)]]: bitboard.rs:10, 529, color.rs:8, game_resolution.rs:6, 57, hand.rs:11, illegal_move_kind.rs:8, 80, legality.rs:10,
    mv.rs:8, 177, 304, piece.rs:19, 30, piece_kind.rs:8, position.rs:13, 57, 100, 374, square.rs:10, 287; nothing at piece_kind.rs:318 *)
Definition derives (t : ty) : list trait :=
  match t with
  | TBitboard | TByteSwappedBitboard | TOptionGameResolution | TResultUnitIllegalMoveKind | TOptionCompactMove =>
      [TrEq; TrPartialEq; TrClone; TrCopy; TrDebug; TrDefault]
  | THand => [TrEq; TrClone; TrCopy; TrDebug; TrDefault]
  | TGame | TPartialGame | TPosition => [TrEq; TrPartialEq; TrClone; TrDebug; TrDefault]
  | TPartialPosition => [TrEq; TrPartialEq; TrClone; TrDebug]
  | TOptionPieceKind => []
  | _ => [TrEq; TrPartialEq; TrClone; TrCopy; TrDebug]
  end.
(** [impl PartialEq for Hand] (hand.rs:191), [impl Default for PartialPosition] (position.rs:859) *)
Definition written_out (t : ty) : list trait := match t with THand => [TrPartialEq] | TPartialPosition => [TrDefault] | _ => [] end.
(** the types with [impl_ord_...!] and [impl_hash_...!], and [Move] (mv.rs:73-131): bitboard.rs:522-523, 600-601, color.rs:69-70,
    game_resolution.rs:42-43, 83-84, hand.rs:198-199, illegal_move_kind.rs:65-66, 129-130, legality.rs:24-25, mv.rs:287-288, 324-325,
    piece.rs:172-173, 192-193, piece_kind.rs:279-280, position.rs:51-54, 94-95, 363-366, 856-857, square.rs:263-264, 307-308 *)
Definition ordered (t : ty) : bool := match t with TOptionPieceKind => false | _ => true end.
(** the [cfg] at the use of the macro, in addition to the one inside it *)
Definition macro_cfg (t : ty) : cfg := match t with TGame | TPosition => Feature FAlloc | _ => Always end.
(** the fields named there *)
Definition key_fields (t : ty) : list ty :=
  match t with TPartialPosition => [TColor; THand; TOptionPiece; TOptionCompactMove] | t => fields t end.

(** ** Items *)
Inductive item := AllocCrate | Type_ (t : ty) | Impl (tr : trait) (t : ty) | Fn (owner name : string).
Record entry := Entry { e_item : item; e_cfg : cfg; e_uses : list item }.

Definition type_entries : list entry :=
  map (fun t => Entry (Type_ t) (ty_cfg t) (match t with TPosition => [AllocCrate] | _ => [] end ++ map Type_ (fields t))) all_types.
(** the traits that a trait requires *)
Definition super (tr : trait) : list trait :=
  match tr with TrEq => [TrPartialEq] | TrOrd => [TrEq; TrPartialOrd] | TrPartialOrd => [TrPartialEq] | TrCopy => [TrClone] | _ => [] end.
(** a derived implementation uses those of the fields; an empty [Vec<Move>] (position.rs:104) needs no default [Move] *)
Definition derive_fields (tr : trait) (t : ty) : list ty := match tr, t with TrDefault, TPosition => [TPartialPosition] | _, t => fields t end.
Definition derive_entries : list entry :=
  flat_map (fun t => map (fun tr => Entry (Impl tr t) (ty_cfg t) (Type_ t :: map (fun x => Impl x t) (super tr) ++ map (Impl tr) (derive_fields tr t))) (derives t)) all_types.
Definition written_entries : list entry :=
  flat_map (fun t => map (fun tr => Entry (Impl tr t) Always (Type_ t :: map (fun x => Impl x t) (super tr))) (written_out t)) all_types.
(** /repo/shogi_core/src/annotated_derive.rs:8-105 *)
Definition macro_entries : list entry :=
  flat_map (fun t => if ordered t then
    [Entry (Impl TrHash t) (Both (macro_cfg t) (Feature FHash)) (Type_ t :: map (Impl TrHash) (key_fields t));
     Entry (Impl TrPartialOrd t) (Both (macro_cfg t) (Feature FOrd))
       (Type_ t :: Impl TrPartialEq t :: match fields t with [] => [] | _ => [Impl TrOrd t] end);
     Entry (Impl TrOrd t) (Both (macro_cfg t) (Feature FOrd))
       (Type_ t :: Impl TrEq t :: Impl TrPartialOrd t :: map (Impl TrOrd) (key_fields t))]
    else []) all_types.

(** ** Traits of the crate *)
Record method := Method { m_trait : string; m_name : string; m_cfg : cfg; m_required : bool; m_uses : list item }.
(** /repo/shogi_core/src/to_usi.rs:4-21, legality.rs:31-131 *)
Definition methods : list method :=
  [Method "ToUsi" "to_usi" Always true [];
   Method "ToUsi" "to_usi_owned" (Feature FAlloc) false [AllocCrate; Fn "ToUsi" "to_usi"];
   Method "LegalityChecker" "status" (Feature FAlloc) true [Fn "use legality" "Position"; Type_ TPositionStatus];
   Method "LegalityChecker" "status_partial" Always true [Type_ TPartialPosition; Type_ TPositionStatus];
   Method "LegalityChecker" "is_legal" (Feature FAlloc) false
     [Fn "use legality" "Position"; Type_ TMove; Type_ TIllegalMoveKind; Fn "LegalityChecker" "status"; Impl TrPartialEq TPositionStatus;
      Fn "Position" "inner"; Fn "LegalityChecker" "is_legal_partial"];
   Method "LegalityChecker" "is_legal_lite" (Feature FAlloc) false
     [Fn "use legality" "Position"; Type_ TMove; Fn "LegalityChecker" "status"; Impl TrPartialEq TPositionStatus;
      Fn "Position" "inner"; Fn "LegalityChecker" "is_legal_partial_lite"];
   Method "LegalityChecker" "is_legal_partial" Always true [Type_ TPartialPosition; Type_ TMove; Type_ TIllegalMoveKind];
   Method "LegalityChecker" "is_legal_partial_lite" Always true [Type_ TPartialPosition; Type_ TMove];
   Method "LegalityChecker" "all_legal_moves" (Feature FAlloc) false
     [Fn "use legality" "Position"; AllocCrate; Type_ TMove; Fn "LegalityChecker" "status"; Impl TrPartialEq TPositionStatus;
      Fn "Position" "inner"; Fn "LegalityChecker" "all_legal_moves_partial"];
   Method "LegalityChecker" "all_legal_moves_partial" (Feature FAlloc) true [Type_ TPartialPosition; AllocCrate; Type_ TMove];
   Method "LegalityChecker" "normal_from_candidates" Always true [Type_ TPartialPosition; Type_ TSquare; Type_ TBitboard];
   Method "LegalityChecker" "normal_to_candidates" Always true [Type_ TPartialPosition; Type_ TSquare; Type_ TPiece; Type_ TBitboard];
   Method "LegalityChecker" "drop_candidates" Always true [Type_ TPartialPosition; Type_ TPiece; Type_ TBitboard];
   Method "LegalityChecker" "make_move" (Feature FAlloc) false
     [Fn "use legality" "Position"; Type_ TMove; Type_ TIllegalMoveKind; Fn "LegalityChecker" "is_legal"; Fn "Position" "make_move"]].
Definition method_entries : list entry := map (fun m => Entry (Fn (m_trait m) (m_name m)) (m_cfg m) (m_uses m)) methods.

(** ** Functions and constants that are not always there *)
(** /repo/shogi_core/src/position.rs:19-49, 107-361: the [impl] blocks of [Game] and [Position] *)
Definition impl_entries : list entry :=
  map (fun x => Entry (Fn "Game" (fst x)) (Feature FAlloc) (Type_ TGame :: snd x))
    [("position", [Type_ TPosition]); ("resolve", [Type_ TGameResolution]); ("unresolve", []); ("resolution", [Type_ TGameResolution]);
     ("Game_resolution", [Type_ TOptionGameResolution])] ++
  map (fun x => Entry (Fn "Position" (fst x)) (Feature FAlloc) (Type_ TPosition :: snd x))
    [("inner", [Type_ TPartialPosition]); ("initial_position", [Type_ TPartialPosition]);
     ("startpos", [Fn "Position" "arbitrary_position"]); ("Position_startpos", [AllocCrate; Fn "Position" "startpos"]);
     ("Position_destruct", [AllocCrate]); ("arbitrary_position", [Type_ TPartialPosition; Impl TrClone TPartialPosition; AllocCrate]);
     ("side_to_move", [Type_ TColor]); ("hand_of_a_player", [Type_ THand]); ("hand_of_a_player_mut", [Type_ THand]); ("hand", [Type_ TPiece]);
     ("ply", []); ("piece_at", [Type_ TPiece]); ("Position_piece_at", [Type_ TOptionPiece]); ("piece_set", [Type_ TPiece]);
     ("occupied_bitboard", [Type_ TBitboard]); ("vacant_bitboard", [Type_ TBitboard]); ("player_bitboard", [Type_ TBitboard]);
     ("piece_bitboard", [Type_ TBitboard]); ("last_move", [Type_ TMove]); ("last_compact_move", [Type_ TCompactMove]); ("moves", [Type_ TMove]);
     ("Position_last_compact_move", [Type_ TOptionCompactMove]); ("make_move", [Type_ TMove]);
     ("make_compact_move", [Type_ TCompactMove; Fn "Position" "make_move"]); ("to_sfen_owned", [AllocCrate; Fn "PartialPosition" "to_sfen_owned"]);
     ("to_sfen_c", [])].
(** lib.rs:9-10, 62-64, legality.rs:1-2, position.rs:817-824, piece.rs:126-153, piece_kind.rs:244-256 *)
Definition other_entries : list entry :=
  [Entry AllocCrate (Feature FAlloc) [];
   Entry (Fn "use shogi_core" "Game, Position") (Feature FAlloc) [Type_ TGame; Type_ TPosition];
   Entry (Fn "use legality" "Position") (Feature FAlloc) [Fn "use shogi_core" "Game, Position"];
   Entry (Fn "PartialPosition" "to_sfen_owned") (Feature FAlloc) [AllocCrate; Type_ TPartialPosition];
   Entry (Fn "Piece" "array_index") (Feature FExperimental) [Fn "Piece" "NUM"];
   Entry (Fn "Piece" "NUM") (Feature FExperimental) [];
   Entry (Fn "PieceKind" "option_array_index") (Feature FExperimental) [Type_ TPieceKind];
   Entry (Fn "PieceKind" "OPTION_NUM") (Feature FExperimental) []].
Definition entries : list entry :=
  type_entries ++ derive_entries ++ written_entries ++ macro_entries ++ method_entries ++ impl_entries ++ other_entries.
(** what the crate consists of when the features [F] are asked for *)
Definition compiled (F : selection) : list entry := filter (fun e => cfg_holds (resolve F) (e_cfg e)) entries.
(** the methods of a trait *)
Definition trait_methods (F : selection) (tr : string) : list method :=
  filter (fun m => String.eqb (m_trait m) tr && cfg_holds (resolve F) (m_cfg m)) methods.
(** the [mod tests] that refer to what is not always there: square.rs:411-491, position.rs:880, 905, 912 *)
Definition test_uses : list item := [Fn "ToUsi" "to_usi_owned"; Fn "PartialPosition" "to_sfen_owned"].

(** ** Unsafe items *)
(** the public ones: bitboard.rs:200, 212, 236, 286, 302, 318, 342, 553, game_resolution.rs:37, illegal_move_kind.rs:60, piece_kind.rs:187,
    198, position.rs:139, 358, 831, square.rs:173, 186 *)
Definition unsafe_items : list (string * string) :=
  [("Bitboard", "from_u128_unchecked"); ("Bitboard", "from_file_unchecked"); ("Bitboard", "get_file_unchecked"); ("Bitboard", "shift_down");
   ("Bitboard", "shift_up"); ("Bitboard", "shift_left"); ("Bitboard", "shift_right"); ("ByteSwappedBitboard", "from_u128_unchecked");
   ("GameResolution", "from_u8_unchecked"); ("IllegalMoveKind", "from_u8_unchecked"); ("PieceKind", "from_u8_unchecked");
   ("PieceKind", "PieceKind_from_u8_unchecked"); ("Position", "Position_destruct"); ("Position", "to_sfen_c");
   ("PartialPosition", "to_sfen_c"); ("Square", "from_u8_unchecked"); ("Square", "Square_from_u8_unchecked")].

(** ** The C library *)
(** /repo/shogi_core_c/Cargo.toml:14-18 *)
Record c_selection := CSelection { c_alloc : bool; c_experimental : bool; c_std : bool }.
(** what it asks of shogi_core: lines 16-18, [default-features = false] in line 26 *)
Definition c_core (F : c_selection) : selection := Selection (c_alloc F) (c_experimental F) false false (c_std F).
Inductive provider := FromStd | Bundled.
(** /repo/shogi_core_c/src/lib.rs:5-11, no_std.rs:45-48, 60-77: with [std] the allocator and the panic handler of std; otherwise those of no_std.rs *)
Definition c_allocators (F : c_selection) : list provider :=
  (if c_std F then [FromStd] else []) ++ (if negb (c_std F) && c_alloc F then [Bundled] else []).
Definition c_panic_handlers (F : c_selection) : list provider := (if c_std F then [FromStd] else []) ++ (if negb (c_std F) then [Bundled] else []).
(** lib.rs:1-4: the unstable feature [alloc_error_handler] *)
Definition c_nightly (F : c_selection) : bool := c_alloc F && negb (c_std F).
