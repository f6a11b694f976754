(** Model of the C interface as data: the declarations of /repo/include/shogi_core.h, the [extern "C"] functions of
    /repo/shogi_core/src with their types, and the layout both compilers give to these types. *)
From Coq Require Import String.
From Verif Require Export MPosition.

(** ** Layouts (the C representation: the ABI of the target for C, "The C representation" of the Rust reference for
    [repr(C)]). [A] is the alignment of [uint64_t] on the target. *)
Record lay := Lay { lay_size : N; lay_align : N; lay_scalars : list (N * N) (* offset, width *) }.
Definition lay_scalar (size align : N) : lay := Lay size align [(0, size)].
Definition lay_shift (o : N) (l : list (N * N)) : list (N * N) := map (fun x => (o + fst x, snd x)) l.
Definition lay_array (n : N) (l : lay) : lay :=
  Lay (n * lay_size l) (lay_align l) (flat_map (fun i => lay_shift (i * lay_size l) (lay_scalars l)) (range 0 n)).
Definition round_up (n align : N) : N := (n + align - 1) / align * align.
Fixpoint lay_place (o : N) (ls : list lay) : list N :=
  match ls with
  | [] => []
  | l :: rest => let o' := round_up o (lay_align l) in o' :: lay_place (o' + lay_size l) rest
  end.
Fixpoint lay_end (o : N) (ls : list lay) : N :=
  match ls with
  | [] => o
  | l :: rest => lay_end (round_up o (lay_align l) + lay_size l) rest
  end.
Definition lay_struct (ls : list lay) : lay :=
  let align := fold_left (fun a l => N.max a (lay_align l)) ls 1 in
  Lay (round_up (lay_end 0 ls) align) align
      (flat_map (fun x => lay_shift (fst x) (lay_scalars (snd x))) (combine (lay_place 0 ls) ls)).

(** How a value travels through a call *)
Inductive shape :=
| Nothing                              (* void *)
| Int (size : N) (signed : bool)
| Bool
| Aggregate (l : lay)                  (* a struct by value *)
| Pointer (writable : bool) (to : target)
| Unknown                              (* no complete type *)
with target := ToLay (l : lay) | ToOpaque (name : string).

(** ** Rust *)
Inductive rty :=
| RU8 | RI8 | RU16 | RU64 | RBool | RUnit
| RNamed (name : string)
| RArray (t : rty) (n : N)
| ROption (t : rty)
| RMaybeUninit (t : rty)
| RRef (t : rty) | RMutRef (t : rty) | RMutPtr (t : rty).
Inductive rdef :=
| REnumU8                              (* [repr(u8)] without fields *)
| RTransparent (t : rty)               (* [repr(transparent)]; [NonZeroU8] travels as [u8] *)
| RReprC (fields : list (string * rty))
| RReprRust.                           (* layout unspecified *)
Open Scope string_scope.
Definition rust_types : list (string * rdef) := [
  ("Color", REnumU8);                                             (* color.rs:7 *)
  ("GameResolution", REnumU8);                                    (* game_resolution.rs:5 *)
  ("IllegalMoveKind", REnumU8);                                   (* illegal_move_kind.rs:7 *)
  ("PieceKind", REnumU8);                                         (* piece_kind.rs:7 *)
  ("Square", RTransparent RU8);                                   (* square.rs:9-11 *)
  ("OptionSquare", RTransparent RU8);                             (* square.rs:286-288 *)
  ("Piece", RTransparent RU8);                                    (* piece.rs:18-21 *)
  ("OptionPiece", RTransparent RU8);                              (* piece.rs:29-31 *)
  ("CompactMove", RTransparent RU16);                             (* mv.rs:176-178 *)
  ("OptionCompactMove", RTransparent RU16);                       (* mv.rs:303-305 *)
  ("OptionPieceKind", RTransparent RU8);                          (* piece_kind.rs:318-319 *)
  ("OptionGameResolution", RTransparent RU8);                     (* game_resolution.rs:56-58 *)
  ("Hand", RReprC [("0", RArray RU8 8)]);                         (* hand.rs:10-12 *)
  ("Bitboard", RReprC [("0", RArray RU64 2)]);                    (* bitboard.rs:9-12 *)
  ("PartialPosition", RReprC [                                    (* position.rs:375-385 *)
    ("side", RNamed "Color"); ("ply", RU16); ("hands", RArray (RNamed "Hand") 2);
    ("board", RArray (RNamed "OptionPiece") 81); ("player_bb", RArray (RNamed "Bitboard") 2);
    ("piece_bb", RArray (RNamed "Bitboard") 14); ("last_move", RNamed "OptionCompactMove");
    ("king_square", RArray (RNamed "OptionSquare") 2)]);
  ("Position", RReprRust); ("Game", RReprRust); ("PartialGame", RReprRust) (* position.rs:13-17,57-61,100-105 *)
].
Record rexport := RExport { re_name : string; re_args : list rty; re_ret : rty }.
(** every function with [#[no_mangle]] or [#[export_name]] in /repo/shogi_core/src *)
Definition rust_exports : list rexport := [
  RExport "Bitboard_empty" [] (RNamed "Bitboard"); (* bitboard.rs:34 *)
  RExport "Bitboard_single" [RNamed "Square"] (RNamed "Bitboard"); (* bitboard.rs:65 *)
  RExport "Bitboard_count" [RNamed "Bitboard"] (RU8); (* bitboard.rs:80 *)
  RExport "Bitboard_is_empty" [RNamed "Bitboard"] (RBool); (* bitboard.rs:98 *)
  RExport "Bitboard_contains" [RNamed "Bitboard"; RNamed "Square"] (RBool); (* bitboard.rs:112 *)
  RExport "Bitboard_flip" [RNamed "Bitboard"] (RNamed "Bitboard"); (* bitboard.rs:132 *)
  RExport "Bitboard_pop" [RMutRef (RNamed "Bitboard")] (RNamed "OptionSquare"); (* bitboard.rs:175 *)
  RExport "Bitboard_bitand" [RNamed "Bitboard"; RNamed "Bitboard"] (RNamed "Bitboard"); (* bitboard.rs:453 *)
  RExport "Bitboard_bitand_assign" [RMutRef (RNamed "Bitboard"); RNamed "Bitboard"] (RUnit); (* bitboard.rs:457 *)
  RExport "Bitboard_bitor" [RNamed "Bitboard"; RNamed "Bitboard"] (RNamed "Bitboard"); (* bitboard.rs:462 *)
  RExport "Bitboard_bitor_assign" [RMutRef (RNamed "Bitboard"); RNamed "Bitboard"] (RUnit); (* bitboard.rs:466 *)
  RExport "Bitboard_bitxor" [RNamed "Bitboard"; RNamed "Bitboard"] (RNamed "Bitboard"); (* bitboard.rs:471 *)
  RExport "Bitboard_bitxor_assign" [RMutRef (RNamed "Bitboard"); RNamed "Bitboard"] (RUnit); (* bitboard.rs:475 *)
  RExport "Bitboard_not" [RNamed "Bitboard"] (RNamed "Bitboard"); (* bitboard.rs:518 *)
  RExport "Color_flip" [RNamed "Color"] (RNamed "Color"); (* color.rs:30 *)
  RExport "GameResolution_from_u8_unchecked" [RU8] (RNamed "GameResolution"); (* game_resolution.rs:37 *)
  RExport "Hand_new" [] (RNamed "Hand"); (* hand.rs:24 *)
  RExport "Hand_add" [RMutRef (RNamed "Hand"); RNamed "PieceKind"] (RBool); (* hand.rs:107 *)
  RExport "Hand_remove" [RMutRef (RNamed "Hand"); RNamed "PieceKind"] (RBool); (* hand.rs:120 *)
  RExport "Hand_count" [RNamed "Hand"; RNamed "PieceKind"] (RU8); (* hand.rs:133 *)
  RExport "Hand_is_hand_piece" [RNamed "PieceKind"] (RBool); (* hand.rs:161 *)
  RExport "IllegalMoveKind_from_u8_unchecked" [RU8] (RNamed "IllegalMoveKind"); (* illegal_move_kind.rs:60 *)
  RExport "CompactMove_normal" [RNamed "Square"; RNamed "Square"; RBool] (RNamed "CompactMove"); (* mv.rs:224 *)
  RExport "CompactMove_drop" [RNamed "Piece"; RNamed "Square"] (RNamed "CompactMove"); (* mv.rs:240 *)
  RExport "CompactMove_from" [RNamed "CompactMove"] (RNamed "OptionSquare"); (* mv.rs:261 *)
  RExport "CompactMove_to" [RNamed "CompactMove"] (RNamed "Square"); (* mv.rs:267 *)
  RExport "CompactMove_is_promoting" [RNamed "CompactMove"] (RBool); (* mv.rs:275 *)
  RExport "CompactMove_is_drop" [RNamed "CompactMove"] (RBool); (* mv.rs:282 *)
  RExport "Piece_new" [RNamed "PieceKind"; RNamed "Color"] (RNamed "Piece"); (* piece.rs:48 *)
  RExport "Piece_piece_kind" [RNamed "Piece"] (RNamed "PieceKind"); (* piece.rs:71 *)
  RExport "Piece_color" [RNamed "Piece"] (RNamed "Color"); (* piece.rs:78 *)
  RExport "Piece_promote" [RNamed "Piece"] (RNamed "OptionPiece"); (* piece.rs:99 *)
  RExport "Piece_unpromote" [RNamed "Piece"] (RNamed "OptionPiece"); (* piece.rs:113 *)
  RExport "PieceKind_from_u8" [RU8] (RNamed "OptionPieceKind"); (* piece_kind.rs:175 *)
  RExport "PieceKind_from_u8_unchecked" [RU8] (RNamed "PieceKind"); (* piece_kind.rs:198 *)
  RExport "PieceKind_promote" [RNamed "PieceKind"] (RNamed "OptionPieceKind"); (* piece_kind.rs:205 *)
  RExport "PieceKind_unpromote" [RNamed "PieceKind"] (RNamed "OptionPieceKind"); (* piece_kind.rs:212 *)
  RExport "Game_position" [RRef (RNamed "Game")] (RRef (RNamed "Position")); (* position.rs:24 *)
  RExport "Game_resolve" [RMutRef (RNamed "Game"); RNamed "GameResolution"] (RUnit); (* position.rs:30 *)
  RExport "Game_unresolve" [RMutRef (RNamed "Game")] (RUnit); (* position.rs:36 *)
  RExport "Game_resolution" [RRef (RNamed "Game")] (RNamed "OptionGameResolution"); (* position.rs:46 *)
  RExport "PartialGame_position" [RRef (RNamed "PartialGame")] (RRef (RNamed "PartialPosition")); (* position.rs:67 *)
  RExport "PartialGame_resolve" [RMutRef (RNamed "PartialGame"); RNamed "GameResolution"] (RUnit); (* position.rs:73 *)
  RExport "PartialGame_unresolve" [RMutRef (RNamed "PartialGame")] (RUnit); (* position.rs:79 *)
  RExport "PartialGame_resolution" [RRef (RNamed "PartialGame")] (RNamed "OptionGameResolution"); (* position.rs:89 *)
  RExport "Position_inner" [RRef (RNamed "Position")] (RRef (RNamed "PartialPosition")); (* position.rs:112 *)
  RExport "Position_initial_position" [RRef (RNamed "Position")] (RRef (RNamed "PartialPosition")); (* position.rs:119 *)
  RExport "Position_startpos" [] (RMutPtr (RNamed "Position")); (* position.rs:130 *)
  RExport "Position_destruct" [RMutPtr (RNamed "Position")] (RUnit); (* position.rs:139 *)
  RExport "Position_side_to_move" [RRef (RNamed "Position")] (RNamed "Color"); (* position.rs:163 *)
  RExport "Position_hand_of_a_player" [RRef (RNamed "Position"); RNamed "Color"] (RNamed "Hand"); (* position.rs:169 *)
  RExport "Position_ply" [RRef (RNamed "Position")] (RU16); (* position.rs:194 *)
  RExport "Position_piece_at" [RRef (RNamed "Position"); RNamed "Square"] (RNamed "OptionPiece"); (* position.rs:215 *)
  RExport "Position_occupied_bitboard" [RRef (RNamed "Position")] (RNamed "Bitboard"); (* position.rs:236 *)
  RExport "Position_vacant_bitboard" [RRef (RNamed "Position")] (RNamed "Bitboard"); (* position.rs:242 *)
  RExport "Position_player_bitboard" [RRef (RNamed "Position"); RNamed "Color"] (RNamed "Bitboard"); (* position.rs:248 *)
  RExport "Position_piece_bitboard" [RRef (RNamed "Position"); RNamed "Piece"] (RNamed "Bitboard"); (* position.rs:264 *)
  RExport "Position_last_compact_move" [RRef (RNamed "Position")] (RNamed "OptionCompactMove"); (* position.rs:304 *)
  RExport "Position_make_compact_move" [RMutRef (RNamed "Position"); RNamed "CompactMove"] (RBool); (* position.rs:329 *)
  RExport "Position_to_sfen_c" [RRef (RNamed "Position"); RMutPtr (RU8)] (RUnit); (* position.rs:358 *)
  RExport "PartialPosition_startpos" [RMutRef (RMaybeUninit (RNamed "PartialPosition"))] (RUnit); (* position.rs:483 *)
  RExport "PartialPosition_side_to_move" [RRef (RNamed "PartialPosition")] (RNamed "Color"); (* position.rs:499 *)
  RExport "PartialPosition_hand_of_a_player" [RRef (RNamed "PartialPosition"); RNamed "Color"] (RNamed "Hand"); (* position.rs:512 *)
  RExport "PartialPosition_ply" [RRef (RNamed "PartialPosition")] (RU16); (* position.rs:538 *)
  RExport "PartialPosition_piece_at" [RRef (RNamed "PartialPosition"); RNamed "Square"] (RNamed "OptionPiece"); (* position.rs:572 *)
  RExport "PartialPosition_occupied_bitboard" [RRef (RNamed "PartialPosition")] (RNamed "Bitboard"); (* position.rs:618 *)
  RExport "PartialPosition_vacant_bitboard" [RRef (RNamed "PartialPosition")] (RNamed "Bitboard"); (* position.rs:625 *)
  RExport "PartialPosition_player_bitboard" [RRef (RNamed "PartialPosition"); RNamed "Color"] (RNamed "Bitboard"); (* position.rs:632 *)
  RExport "PartialPosition_piece_bitboard" [RRef (RNamed "PartialPosition"); RNamed "Piece"] (RNamed "Bitboard"); (* position.rs:649 *)
  RExport "PartialPosition_piece_kind_bitboard" [RRef (RNamed "PartialPosition"); RNamed "PieceKind"] (RNamed "Bitboard"); (* position.rs:665 *)
  RExport "PartialPosition_last_compact_move" [RRef (RNamed "PartialPosition")] (RNamed "OptionCompactMove"); (* position.rs:693 *)
  RExport "PartialPosition_make_compact_move" [RMutRef (RNamed "PartialPosition"); RNamed "CompactMove"] (RBool); (* position.rs:762 *)
  RExport "PartialPosition_to_sfen_c" [RRef (RNamed "PartialPosition"); RMutPtr (RU8)] (RUnit); (* position.rs:831 *)
  RExport "Square_new" [RU8; RU8] (RNamed "OptionSquare"); (* square.rs:31 *)
  RExport "Square_new_relative" [RU8; RU8; RNamed "Color"] (RNamed "OptionSquare"); (* square.rs:62 *)
  RExport "Square_file" [RNamed "Square"] (RU8); (* square.rs:75 *)
  RExport "Square_rank" [RNamed "Square"] (RU8); (* square.rs:89 *)
  RExport "Square_index" [RNamed "Square"] (RU8); (* square.rs:104 *)
  RExport "Square_relative_rank" [RNamed "Square"; RNamed "Color"] (RU8); (* square.rs:111 *)
  RExport "Square_relative_file" [RNamed "Square"; RNamed "Color"] (RU8); (* square.rs:121 *)
  RExport "Square_flip" [RNamed "Square"] (RNamed "Square"); (* square.rs:139 *)
  RExport "Square_from_u8" [RU8] (ROption (RNamed "Square")); (* square.rs:155 *)
  RExport "Square_from_u8_unchecked" [RU8] (RNamed "Square"); (* square.rs:186 *)
  RExport "Square_shift" [RNamed "Square"; RI8; RI8] (ROption (RNamed "Square")) (* square.rs:203 *)
].

(** ** The header *)
Inductive cty :=
| CVoid | CU8 | CI8 | CU16 | CU64 | CBool
| CName (name : string)                (* a typedef name *)
| CStruct (tag : string)
| CArray (t : cty) (n : N)
| CPtr (t : cty) | CPtrConst (t : cty).
Definition header_typedefs : list (string * cty) := [
  ("Color", CU8); ("GameResolution", CU8); ("IllegalMoveKind", CU8); ("PieceKind", CU8); (* :52,92,146,282 *)
  ("Game", CStruct "Game"); ("Option_Square", CStruct "Option_Square"); ("PartialGame", CStruct "PartialGame"); (* :288,291,296 *)
  ("Position", CStruct "Position"); ("Bitboard", CStruct "Bitboard"); (* :302,311 *)
  ("Square", CU8); ("OptionSquare", CU8); ("CompactMove", CU16); ("Piece", CU8); (* :321,345,356,372 *)
  ("OptionGameResolution", CU8); ("Hand", CStruct "Hand"); ("OptionPiece", CU8); (* :404,414,437 *)
  ("OptionCompactMove", CU16); ("PartialPosition", CStruct "PartialPosition"); ("OptionPieceKind", CU8) (* :445,455,479 *)
].
(** the structs defined; other tags are incomplete *)
Definition header_structs : list (string * list (string * cty)) := [
  ("Bitboard", [("_0", CArray CU64 2)]);                          (* :311-313 *)
  ("Hand", [("_0", CArray CU8 8)]);                               (* :414-416 *)
  ("PartialPosition", [                                           (* :455-464 *)
    ("side", CName "Color"); ("ply", CU16); ("hands", CArray (CStruct "Hand") 2);
    ("board", CArray (CName "OptionPiece") 81); ("player_bb", CArray (CStruct "Bitboard") 2);
    ("piece_bb", CArray (CStruct "Bitboard") 14); ("last_move", CName "OptionCompactMove");
    ("king_square", CArray (CName "OptionSquare") 2)])
].
Record cproto := CProto { cp_name : string; cp_args : list cty; cp_ret : cty }.
Definition header_protos : list cproto := [
  CProto "Bitboard_bitand" [CStruct "Bitboard"; CStruct "Bitboard"] (CStruct "Bitboard"); (* :481 *)
  CProto "Bitboard_bitand_assign" [CPtr (CStruct "Bitboard"); CStruct "Bitboard"] (CVoid); (* :483 *)
  CProto "Bitboard_bitor" [CStruct "Bitboard"; CStruct "Bitboard"] (CStruct "Bitboard"); (* :485 *)
  CProto "Bitboard_bitor_assign" [CPtr (CStruct "Bitboard"); CStruct "Bitboard"] (CVoid); (* :487 *)
  CProto "Bitboard_bitxor" [CStruct "Bitboard"; CStruct "Bitboard"] (CStruct "Bitboard"); (* :489 *)
  CProto "Bitboard_bitxor_assign" [CPtr (CStruct "Bitboard"); CStruct "Bitboard"] (CVoid); (* :491 *)
  CProto "Bitboard_contains" [CStruct "Bitboard"; CName "Square"] (CBool); (* :504 *)
  CProto "Bitboard_count" [CStruct "Bitboard"] (CU8); (* :517 *)
  CProto "Bitboard_empty" [] (CStruct "Bitboard"); (* :522 *)
  CProto "Bitboard_flip" [CStruct "Bitboard"] (CStruct "Bitboard"); (* :535 *)
  CProto "Bitboard_is_empty" [CStruct "Bitboard"] (CBool); (* :551 *)
  CProto "Bitboard_not" [CStruct "Bitboard"] (CStruct "Bitboard"); (* :556 *)
  CProto "Bitboard_pop" [CPtr (CStruct "Bitboard")] (CName "OptionSquare"); (* :561 *)
  CProto "Bitboard_single" [CName "Square"] (CStruct "Bitboard"); (* :566 *)
  CProto "Color_flip" [CName "Color"] (CName "Color"); (* :578 *)
  CProto "CompactMove_drop" [CName "Piece"; CName "Square"] (CName "CompactMove"); (* :591 *)
  CProto "CompactMove_from" [CName "CompactMove"] (CName "OptionSquare"); (* :597 *)
  CProto "CompactMove_is_drop" [CName "CompactMove"] (CBool); (* :602 *)
  CProto "CompactMove_is_promoting" [CName "CompactMove"] (CBool); (* :607 *)
  CProto "CompactMove_normal" [CName "Square"; CName "Square"; CBool] (CName "CompactMove"); (* :621 *)
  CProto "CompactMove_to" [CName "CompactMove"] (CName "Square"); (* :628 *)
  CProto "GameResolution_from_u8_unchecked" [CU8] (CName "GameResolution"); (* :637 *)
  CProto "Game_position" [CPtrConst (CStruct "Game")] (CPtrConst (CStruct "Position")); (* :642 *)
  CProto "Game_resolution" [CPtrConst (CStruct "Game")] (CName "OptionGameResolution"); (* :647 *)
  CProto "Game_resolve" [CPtr (CStruct "Game"); CName "GameResolution"] (CVoid); (* :652 *)
  CProto "Game_unresolve" [CPtr (CStruct "Game")] (CVoid); (* :657 *)
  CProto "Hand_add" [CPtr (CStruct "Hand"); CName "PieceKind"] (CBool); (* :664 *)
  CProto "Hand_count" [CStruct "Hand"; CName "PieceKind"] (CU8); (* :671 *)
  CProto "Hand_is_hand_piece" [CName "PieceKind"] (CBool); (* :673 *)
  CProto "Hand_new" [] (CStruct "Hand"); (* :684 *)
  CProto "Hand_remove" [CPtr (CStruct "Hand"); CName "PieceKind"] (CBool); (* :691 *)
  CProto "IllegalMoveKind_from_u8_unchecked" [CU8] (CName "IllegalMoveKind"); (* :700 *)
  CProto "PartialGame_position" [CPtrConst (CStruct "PartialGame")] (CPtrConst (CStruct "PartialPosition")); (* :705 *)
  CProto "PartialGame_resolution" [CPtrConst (CStruct "PartialGame")] (CName "OptionGameResolution"); (* :710 *)
  CProto "PartialGame_resolve" [CPtr (CStruct "PartialGame"); CName "GameResolution"] (CVoid); (* :715 *)
  CProto "PartialGame_unresolve" [CPtr (CStruct "PartialGame")] (CVoid); (* :720 *)
  CProto "PartialPosition_hand_of_a_player" [CPtrConst (CStruct "PartialPosition"); CName "Color"] (CStruct "Hand"); (* :725 *)
  CProto "PartialPosition_last_compact_move" [CPtrConst (CStruct "PartialPosition")] (CName "OptionCompactMove"); (* :730 *)
  CProto "PartialPosition_make_compact_move" [CPtr (CStruct "PartialPosition"); CName "CompactMove"] (CBool); (* :741 *)
  CProto "PartialPosition_occupied_bitboard" [CPtrConst (CStruct "PartialPosition")] (CStruct "Bitboard"); (* :748 *)
  CProto "PartialPosition_piece_at" [CPtrConst (CStruct "PartialPosition"); CName "Square"] (CName "OptionPiece"); (* :753 *)
  CProto "PartialPosition_piece_bitboard" [CPtrConst (CStruct "PartialPosition"); CName "Piece"] (CStruct "Bitboard"); (* :768 *)
  CProto "PartialPosition_piece_kind_bitboard" [CPtrConst (CStruct "PartialPosition"); CName "PieceKind"] (CStruct "Bitboard"); (* :781 *)
  CProto "PartialPosition_player_bitboard" [CPtrConst (CStruct "PartialPosition"); CName "Color"] (CStruct "Bitboard"); (* :787 *)
  CProto "PartialPosition_ply" [CPtrConst (CStruct "PartialPosition")] (CU16); (* :792 *)
  CProto "PartialPosition_side_to_move" [CPtrConst (CStruct "PartialPosition")] (CName "Color"); (* :806 *)
  CProto "PartialPosition_startpos" [CPtr (CStruct "PartialPosition")] (CVoid); (* :811 *)
  CProto "PartialPosition_to_sfen_c" [CPtrConst (CStruct "PartialPosition"); CPtr (CU8)] (CVoid); (* :820 *)
  CProto "PartialPosition_vacant_bitboard" [CPtrConst (CStruct "PartialPosition")] (CStruct "Bitboard"); (* :825 *)
  CProto "PieceKind_from_u8" [CU8] (CName "OptionPieceKind"); (* :830 *)
  CProto "PieceKind_from_u8_unchecked" [CU8] (CName "PieceKind"); (* :839 *)
  CProto "PieceKind_promote" [CName "PieceKind"] (CName "OptionPieceKind"); (* :844 *)
  CProto "PieceKind_unpromote" [CName "PieceKind"] (CName "OptionPieceKind"); (* :849 *)
  CProto "Piece_color" [CName "Piece"] (CName "Color"); (* :854 *)
  CProto "Piece_new" [CName "PieceKind"; CName "Color"] (CName "Piece"); (* :859 *)
  CProto "Piece_piece_kind" [CName "Piece"] (CName "PieceKind"); (* :864 *)
  CProto "Piece_promote" [CName "Piece"] (CName "OptionPiece"); (* :869 *)
  CProto "Piece_unpromote" [CName "Piece"] (CName "OptionPiece"); (* :874 *)
  CProto "Position_destruct" [CPtr (CStruct "Position")] (CVoid); (* :882 *)
  CProto "Position_hand_of_a_player" [CPtrConst (CStruct "Position"); CName "Color"] (CStruct "Hand"); (* :887 *)
  CProto "Position_initial_position" [CPtrConst (CStruct "Position")] (CPtrConst (CStruct "PartialPosition")); (* :892 *)
  CProto "Position_inner" [CPtrConst (CStruct "Position")] (CPtrConst (CStruct "PartialPosition")); (* :897 *)
  CProto "Position_last_compact_move" [CPtrConst (CStruct "Position")] (CName "OptionCompactMove"); (* :902 *)
  CProto "Position_make_compact_move" [CPtr (CStruct "Position"); CName "CompactMove"] (CBool); (* :913 *)
  CProto "Position_occupied_bitboard" [CPtrConst (CStruct "Position")] (CStruct "Bitboard"); (* :920 *)
  CProto "Position_piece_at" [CPtrConst (CStruct "Position"); CName "Square"] (CName "OptionPiece"); (* :925 *)
  CProto "Position_piece_bitboard" [CPtrConst (CStruct "Position"); CName "Piece"] (CStruct "Bitboard"); (* :940 *)
  CProto "Position_player_bitboard" [CPtrConst (CStruct "Position"); CName "Color"] (CStruct "Bitboard"); (* :945 *)
  CProto "Position_ply" [CPtrConst (CStruct "Position")] (CU16); (* :950 *)
  CProto "Position_side_to_move" [CPtrConst (CStruct "Position")] (CName "Color"); (* :964 *)
  CProto "Position_startpos" [] (CPtr (CStruct "Position")); (* :969 *)
  CProto "Position_to_sfen_c" [CPtrConst (CStruct "Position"); CPtr (CU8)] (CVoid); (* :978 *)
  CProto "Position_vacant_bitboard" [CPtrConst (CStruct "Position")] (CStruct "Bitboard"); (* :983 *)
  CProto "Square_file" [CName "Square"] (CU8); (* :994 *)
  CProto "Square_flip" [CName "Square"] (CName "Square"); (* :1006 *)
  CProto "Square_from_u8" [CU8] (CStruct "Option_Square"); (* :1019 *)
  CProto "Square_from_u8_unchecked" [CU8] (CName "Square"); (* :1027 *)
  CProto "Square_index" [CName "Square"] (CU8); (* :1039 *)
  CProto "Square_new" [CU8; CU8] (CName "OptionSquare"); (* :1044 *)
  CProto "Square_new_relative" [CU8; CU8; CName "Color"] (CName "OptionSquare"); (* :1049 *)
  CProto "Square_rank" [CName "Square"] (CU8); (* :1060 *)
  CProto "Square_relative_file" [CName "Square"; CName "Color"] (CU8); (* :1065 *)
  CProto "Square_relative_rank" [CName "Square"; CName "Color"] (CU8); (* :1070 *)
  CProto "Square_shift" [CName "Square"; CI8; CI8] (CStruct "Option_Square") (* :1083 *)
].
(** the enumeration constants (:38-51,60-91,102-145,154-281) *)
Definition header_constants : list (string * N) := [
  ("Black", 1); ("White", 2);
  ("BlackWins", 1); ("WhiteWins", 2); ("Draw", 3); ("Rematch", 4); ("Aborted", 5);
  ("TwoPawns", 1); ("IgnoredCheck", 2); ("DropPawnMate", 3); ("DropStuck", 4); ("NormalStuck", 5); ("GameFinished", 6);
  ("IncorrectMove", 7);
  ("Pawn", 1); ("Lance", 2); ("Knight", 3); ("Silver", 4); ("Gold", 5); ("Bishop", 6); ("Rook", 7); ("King", 8);
  ("ProPawn", 9); ("ProLance", 10); ("ProKnight", 11); ("ProSilver", 12); ("ProBishop", 13); ("ProRook", 14)
].
(** the macros (:26,29,334,388,427) *)
Definition header_macros : list (string * N) := [
  ("Color_NUM", 2); ("PieceKind_OPTION_NUM", 15); ("Square_NUM", 81); ("Piece_NUM", 31); ("Hand_NUM_HAND_PIECES", 7)
].
Close Scope string_scope.

(** ** Shapes. The first argument bounds the nesting of declarations. *)
Definition look {A} (n : string) (l : list (string * A)) : option A :=
  match find (fun x => String.eqb (fst x) n) l with Some x => Some (snd x) | None => None end.
Fixpoint all_some {A} (l : list (option A)) : option (list A) :=
  match l with
  | [] => Some []
  | Some x :: rest => match all_some rest with Some xs => Some (x :: xs) | None => None end
  | None :: _ => None
  end.
Fixpoint rust_lay (fuel : nat) (A : N) (t : rty) : option lay :=
  match fuel with
  | O => None
  | S fuel =>
      match t with
      | RU8 | RI8 | RBool => Some (lay_scalar 1 1)
      | RU16 => Some (lay_scalar 2 2)
      | RU64 => Some (lay_scalar 8 A)
      | RArray t n => option_map (lay_array n) (rust_lay fuel A t)
      | ROption (RNamed "Square") => Some (lay_scalar 1 1)       (* the niche of [NonZeroU8] *)
      | RMaybeUninit t => rust_lay fuel A t
      | RNamed n =>
          match look n rust_types with
          | Some REnumU8 => Some (lay_scalar 1 1)
          | Some (RTransparent t) => rust_lay fuel A t
          | Some (RReprC fs) => option_map lay_struct (all_some (map (fun f => rust_lay fuel A (snd f)) fs))
          | Some RReprRust | None => None
          end
      | _ => None
      end
  end.
Fixpoint c_lay (fuel : nat) (A : N) (t : cty) : option lay :=
  match fuel with
  | O => None
  | S fuel =>
      match t with
      | CU8 | CI8 | CBool => Some (lay_scalar 1 1)
      | CU16 => Some (lay_scalar 2 2)
      | CU64 => Some (lay_scalar 8 A)
      | CArray t n => option_map (lay_array n) (c_lay fuel A t)
      | CName n => match look n header_typedefs with Some t => c_lay fuel A t | None => None end
      | CStruct n =>
          match look n header_structs with
          | Some fs => option_map lay_struct (all_some (map (fun f => c_lay fuel A (snd f)) fs))
          | None => None
          end
      | CVoid | CPtr _ | CPtrConst _ => None
      end
  end.
Fixpoint rust_shape (fuel : nat) (A : N) (t : rty) : shape :=
  match fuel with
  | O => Unknown
  | S fuel =>
      let pointer w t :=
        match rust_lay 9 A t, t with
        | Some l, _ => Pointer w (ToLay l)
        | None, RNamed n => Pointer w (ToOpaque n)
        | None, _ => Unknown
        end in
      match t with
      | RUnit => Nothing
      | RU8 => Int 1 false | RI8 => Int 1 true | RU16 => Int 2 false | RU64 => Int 8 false
      | RBool => Bool
      | ROption (RNamed "Square") => Int 1 false
      | RNamed n =>
          match look n rust_types with
          | Some REnumU8 => Int 1 false
          | Some (RTransparent t) => rust_shape fuel A t
          | Some (RReprC _) => match rust_lay 9 A t with Some l => Aggregate l | None => Unknown end
          | Some RReprRust | None => Unknown
          end
      | RRef t => pointer false t
      | RMutRef t | RMutPtr t => pointer true t
      | RArray _ _ | ROption _ | RMaybeUninit _ => Unknown
      end
  end.
Fixpoint c_shape (fuel : nat) (A : N) (t : cty) : shape :=
  match fuel with
  | O => Unknown
  | S fuel =>
      let pointer w t :=
        match c_lay 9 A t, t with
        | Some l, _ => Pointer w (ToLay l)
        | None, CStruct n => Pointer w (ToOpaque n)
        | None, _ => Unknown
        end in
      match t with
      | CVoid => Nothing
      | CU8 => Int 1 false | CI8 => Int 1 true | CU16 => Int 2 false | CU64 => Int 8 false
      | CBool => Bool
      | CName n => match look n header_typedefs with Some t => c_shape fuel A t | None => Unknown end
      | CStruct n => match c_lay 9 A t with Some l => Aggregate l | None => Unknown end
      | CPtr t => pointer true t
      | CPtrConst t => pointer false t
      | CArray _ _ => Unknown
      end
  end.
