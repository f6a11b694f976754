(** Specification of the texts of ["{:?}"] and ["{:#?}"]: written down here as texts, without formatters, builders or adapters.
    Uses the data types of the model only. *)
From Verif Require Import Machine MColor MPieceKind MPiece MSquare MMove MHand MBitboard MResolution MPosition MLegality SpecBase SpecSfen.
From Coq Require Import String Ascii.
Local Open Scope list_scope.

Definition text := list N.
Definition line_feed : text := [10].
(** every line four columns to the right *)
Definition indent (t : text) : text := bytes "    " ++ flat_map (fun c => if c =? 10 then line_feed ++ bytes "    " else [c]) t.
(** one item per line, a comma after each *)
Definition item_lines (ts : list text) : text := flat_map (fun t => indent t ++ bytes "," ++ line_feed)%list ts.
Fixpoint commas (ts : list text) : text :=
  match ts with [] => [] | [t] => t | t :: rest => t ++ bytes ", " ++ commas rest end.
(** a tuple struct or variant, a struct or variant with named fields, an array or vector *)
Definition tuple_text (pretty : bool) (name : text) (ts : list text) : text :=
  name ++ (if pretty then bytes "(" ++ line_feed ++ item_lines ts ++ bytes ")" else bytes "(" ++ commas ts ++ bytes ")").
Definition struct_text (pretty : bool) (name : text) (fields : list (text * text)) : text :=
  let ts := map (fun f => fst f ++ bytes ": " ++ snd f) fields in
  name ++ (if pretty then bytes " {" ++ line_feed ++ item_lines ts ++ bytes "}" else bytes " { " ++ commas ts ++ bytes " }").
Definition list_text (pretty : bool) (ts : list text) : text :=
  match ts with
  | [] => bytes "[]"
  | _ => if pretty then bytes "[" ++ line_feed ++ item_lines ts ++ bytes "]" else bytes "[" ++ commas ts ++ bytes "]"
  end.

(** ** The texts of the library's types *)
Definition wrapped (pretty : bool) (name : string) (n : N) : text := tuple_text pretty (bytes name) [decimal n].
Definition color_name (c : color) : text := match c with Black => bytes "Black" | White => bytes "White" end.
Definition kind_name (k : piece_kind) : text :=
  match k with
  | Pawn => bytes "Pawn" | Lance => bytes "Lance" | Knight => bytes "Knight" | Silver => bytes "Silver" | Gold => bytes "Gold"
  | Bishop => bytes "Bishop" | Rook => bytes "Rook" | King => bytes "King" | ProPawn => bytes "ProPawn"
  | ProLance => bytes "ProLance" | ProKnight => bytes "ProKnight" | ProSilver => bytes "ProSilver"
  | ProBishop => bytes "ProBishop" | ProRook => bytes "ProRook"
  end.
Definition resolution_name (r : game_resolution) : text :=
  match r with
  | BlackWins => bytes "BlackWins" | WhiteWins => bytes "WhiteWins" | Draw => bytes "Draw" | Rematch => bytes "Rematch"
  | Aborted => bytes "Aborted"
  end.
Definition illegal_name (k : illegal_move_kind) : text :=
  match k with
  | TwoPawns => bytes "TwoPawns" | IgnoredCheck => bytes "IgnoredCheck" | DropPawnMate => bytes "DropPawnMate"
  | DropStuck => bytes "DropStuck" | NormalStuck => bytes "NormalStuck" | GameFinished => bytes "GameFinished"
  | IncorrectMove => bytes "IncorrectMove"
  end.
Definition status_name (s : position_status) : text :=
  match s with
  | PSBlackWins => bytes "BlackWins" | PSWhiteWins => bytes "WhiteWins" | PSDraw => bytes "Draw"
  | PSInProgress => bytes "InProgress" | PSInvalid => bytes "Invalid"
  end.
Definition bool_name (b : bool) : text := if b then bytes "true" else bytes "false".
Definition square_dtext (b : bool) (s : square) : text := wrapped b "Square" (sq_repr s).
Definition osquare_dtext (b : bool) (s : option_square) : text := wrapped b "OptionSquare" (os_repr s).
Definition piece_dtext (b : bool) (p : piece) : text := wrapped b "Piece" (piece_repr p).
Definition opiece_dtext (b : bool) (p : option_piece) : text := wrapped b "OptionPiece" (op_repr p).
Definition compact_dtext (b : bool) (m : compact_move) : text := wrapped b "CompactMove" (cm_repr m).
Definition ocompact_dtext (b : bool) (m : option_compact_move) : text := wrapped b "OptionCompactMove" (ocm_repr m).
Definition result_dtext (b : bool) (r : result_unit_imk) : text := wrapped b "ResultUnitIllegalMoveKind" (rui_repr r).
Definition oresolution_dtext (b : bool) (r : option_game_resolution) : text := wrapped b "OptionGameResolution" (ogr_repr r).
Definition numbers (b : bool) (name : string) (ns : list N) : text := tuple_text b (bytes name) [list_text b (map decimal ns)].
Definition hand_dtext (b : bool) (h : hand) : text := numbers b "Hand" (hand_bytes h).
Definition bitboard_dtext (b : bool) (x : bitboard) : text := numbers b "Bitboard" [bb0 x; bb1 x].
Definition swapped_dtext (b : bool) (x : byte_swapped) : text := numbers b "ByteSwappedBitboard" [bs0 x; bs1 x].
Definition move_dtext (b : bool) (m : move) : text :=
  match m with
  | Normal from to promote => struct_text b (bytes "Normal")
      [(bytes "from", square_dtext b from); (bytes "to", square_dtext b to); (bytes "promote", bool_name promote)]
  | Drop p to => struct_text b (bytes "Drop") [(bytes "piece", piece_dtext b p); (bytes "to", square_dtext b to)]
  end.
Definition partial_dtext (b : bool) (s : partial_position) : text := struct_text b (bytes "PartialPosition")
  [(bytes "side", color_name (pp_side s)); (bytes "ply", decimal (pp_ply s));
   (bytes "hands", list_text b (map (hand_dtext b) (pp_hands s)));
   (bytes "board", list_text b (map (opiece_dtext b) (pp_board s)));
   (bytes "player_bb", list_text b (map (bitboard_dtext b) (pp_player_bb s)));
   (bytes "piece_bb", list_text b (map (bitboard_dtext b) (pp_piece_bb s)));
   (bytes "last_move", ocompact_dtext b (pp_last_move s));
   (bytes "king_square", list_text b (map (osquare_dtext b) (pp_king_square s)))].
Definition position_dtext (b : bool) (p : position) : text := struct_text b (bytes "Position")
  [(bytes "initial", partial_dtext b (pos_initial p)); (bytes "inner", partial_dtext b (pos_inner p));
   (bytes "moves", list_text b (map (move_dtext b) (pos_moves p)))].
Definition game_dtext (b : bool) (g : game) : text := struct_text b (bytes "Game")
  [(bytes "inner", position_dtext b (g_inner g)); (bytes "resolution", oresolution_dtext b (g_resolution g))].
Definition partial_game_dtext (b : bool) (g : partial_game) : text := struct_text b (bytes "PartialGame")
  [(bytes "inner", partial_dtext b (g_inner g)); (bytes "resolution", oresolution_dtext b (g_resolution g))].

(** ** Numbers are those of machine integers *)
Definition word64 (n : N) : Prop := n < 2 ^ 64.
Definition partial_sized (s : partial_position) : Prop :=
  word64 (pp_ply s) /\ Forall (fun h => Forall word64 (hand_bytes h)) (pp_hands s) /\
  Forall (fun p => word64 (op_repr p)) (pp_board s) /\
  Forall (fun x => word64 (bb0 x) /\ word64 (bb1 x)) (pp_player_bb s) /\
  Forall (fun x => word64 (bb0 x) /\ word64 (bb1 x)) (pp_piece_bb s) /\
  word64 (ocm_repr (pp_last_move s)) /\ Forall (fun x => word64 (os_repr x)) (pp_king_square s).
Definition move_sized (m : move) : Prop :=
  match m with
  | Normal from to _ => word64 (sq_repr from) /\ word64 (sq_repr to)
  | Drop p to => word64 (piece_repr p) /\ word64 (sq_repr to)
  end.
Definition position_sized (p : position) : Prop :=
  partial_sized (pos_initial p) /\ partial_sized (pos_inner p) /\ Forall move_sized (pos_moves p).

(** [format!("{:?}", x)] or [format!("{:#?}", x)]: a [String] takes everything *)
Definition formatted (f : printer) : res text := t <- f _ (Sink (fun w s => ((w ++ s)%list, true))) [];; Ret (fst t).
(** What is said of a [Debug] implementation: it offers [t] to every sink, honestly *)
Definition debug_prints (f : printer) (t : text) : Prop := prints f t /\ honest_printer f t /\ formatted f = Ret t.

(** A text without blanks and newlines, and without the comma before a closing bracket *)
Definition blank (c : N) : bool := (c =? 32) || (c =? 10).
Definition closes (c : N) : bool := (c =? 41) || (c =? 93) || (c =? 125).
Fixpoint no_trailing (t : text) : text :=
  match t with
  | [] => []
  | c :: rest =>
      match rest with
      | d :: _ => if (c =? 44) && closes d then no_trailing rest else c :: no_trailing rest
      | [] => [c]
      end
  end.
Definition gist (t : text) : text := no_trailing (filter (fun c => negb (blank c)) t).
(** Texts tell apart exactly what [==] tells apart *)
Definition tells {A : Type} (ok : A -> Prop) (eqb : A -> A -> bool) (f : A -> printer) : Prop :=
  forall x y, ok x -> ok y -> exists t u, formatted (f x) = Ret t /\ formatted (f y) = Ret u /\ (t = u <-> eqb x y = true).
(** The two formats say the same *)
Definition same_gist {A : Type} (ok : A -> Prop) (f : bool -> A -> printer) : Prop :=
  forall x, ok x -> exists t u, formatted (f true x) = Ret t /\ formatted (f false x) = Ret u /\ gist t = gist u.
