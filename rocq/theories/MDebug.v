(** Model of the derived [Debug] implementations (the lines with [derive(... Debug ...)] are cited below) with the helpers of
    [core::fmt] they expand to, for the formats ["{:?}"] and ["{:#?}"] without further flags. *)
From Verif Require Export MLegality.
From Coq Require Import String Ascii.
Local Open Scope string_scope.

(** A value as its [Debug] implementation presents it to the formatter *)
Inductive debug_kind :=
| DTuple (name : list N)    (* [f.debug_tuple(name)] *)
| DStruct (name : list N)   (* [f.debug_struct(name)] *)
| DList.                    (* [f.debug_list()] *)
Inductive debug_tree :=
| DNum (n : N)                                                    (* an unsigned integer *)
| DUnit (name : list N)                                           (* [f.write_str(name)] *)
| DNode (k : debug_kind) (items : list (list N * debug_tree)).    (* names of fields; empty unless a struct *)

(** core::fmt::num: the digits are written from the end into a buffer, which is written at once *)
Fixpoint digits_before (fuel : nat) (n : N) (acc : list N) : list N :=
  match fuel with
  | O => acc
  | S fuel => let acc := (48 + n mod 10)%N :: acc in if (n / 10 =? 0)%N then acc else digits_before fuel (n / 10) acc
  end.
Definition num_text (n : N) : list N := digits_before 20 n [].

(** core::fmt::builders::PadAdapter: a sink that writes four spaces before each line; the state says whether a line begins *)
Fixpoint split_inclusive (s : list N) : list (list N) :=
  match s with
  | [] => []
  | c :: rest =>
      if (c =? 10)%N then [c] :: split_inclusive rest
      else match split_inclusive rest with [] => [[c]] | l :: ls => (c :: l) :: ls end
  end.
Definition ends_line (s : list N) : bool := (List.last s 0 =? 10)%N.
Fixpoint pad_lines {W : Type} (K : sink W) (ls : list (list N)) (w : W * bool) : (W * bool) * bool :=
  match ls with
  | [] => (w, true)
  | l :: rest =>
      let (w1, ok) := if snd w then write_str K (fst w) (bytes "    ") else (fst w, true) in
      if ok then
        let (w2, ok) := write_str K w1 l in
        if ok then pad_lines K rest (w2, ends_line l) else ((w2, ends_line l), false)
      else ((w1, snd w), false)
  end.
Definition pad {W : Type} (K : sink W) : sink (W * bool) := Sink (fun w s => pad_lines K (split_inclusive s) w).
(** [value.fmt(&mut PadAdapter::wrap(...))]: the adapter begins on a new line and is dropped afterwards *)
Definition padded {W : Type} (f : writer (W * bool)) : writer W :=
  fun w => match f (w, true) with
           | Ret ((w', _), ok) => Ret (w', ok)
           | Panic => Panic
           | UB => UB
           end.

(** core::fmt::builders: what is written before the first field, before the others, and at the end *)
Definition opening (k : debug_kind) (pretty : bool) : list N :=
  match k with
  | DTuple _ => if pretty then bytes "(" ++ [10%N] else bytes "("
  | DStruct _ => if pretty then bytes " {" ++ [10%N] else bytes " { "
  | DList => if pretty then [10%N] else []
  end.
Definition closing (k : debug_kind) (pretty : bool) : list N :=
  match k with
  | DTuple _ => bytes ")"
  | DStruct _ => if pretty then bytes "}" else bytes " }"
  | DList => bytes "]"
  end.
(** what the builder writes when it is made *)
Definition heading (k : debug_kind) : list N := match k with DTuple name | DStruct name => name | DList => bytes "[" end.
(** [DebugStruct] writes the name of the field and a colon *)
Definition label {W : Type} (K : sink W) (k : debug_kind) (name : list N) : writer W :=
  match k with DStruct _ => wstr K name ?; wstr K (bytes ": ") | _ => wok end.
(** [DebugList] writes no empty string; [DebugTuple] and [DebugStruct] without fields write nothing at the end *)
Definition wopt {W : Type} (K : sink W) (s : list N) : writer W := match s with [] => wok | _ => wstr K s end.
Definition fmt_fields (f : debug_tree -> forall W, sink W -> writer W) (pretty : bool) (k : debug_kind) {W : Type} (K : sink W) :
    bool -> list (list N * debug_tree) -> writer W :=
  fix go (first : bool) (items : list (list N * debug_tree)) : writer W :=
    match items with
    | [] =>
        match first, k with
        | true, DTuple _ | true, DStruct _ => wok
        | _, _ => wstr K (closing k pretty)
        end
    | (name, x) :: rest =>
        (if pretty then
           (if first then wstr K (opening k true) else wok) ?;
           padded (label (pad K) k name ?; f x _ (pad K) ?; wstr (pad K) (bytes "," ++ [10%N]))
         else
           (if first then wopt K (opening k false) else wstr K (bytes ", ")) ?;
           label K k name ?; f x W K) ?;
        go false rest
    end.
Fixpoint fmt_debug (pretty : bool) (d : debug_tree) {struct d} : forall W, sink W -> writer W :=
  match d with
  | DNum n => fun W K =>   (* [Formatter::pad_integral] writes the (empty) prefix in the alternate format *)
      (if pretty then wstr K [] else wok) ?; wstr K (num_text n)
  | DUnit name => fun W K => wstr K name
  | DNode k items => fun W K => wstr K (heading k) ?; fmt_fields (fmt_debug pretty) pretty k K true items
  end.

(** ** The implementations *)
Definition tuple (name : string) (x : debug_tree) : debug_tree := DNode (DTuple (bytes name)) [([], x)].
Definition list_of {A : Type} (f : A -> debug_tree) (l : list A) : debug_tree := DNode DList (map (fun x => ([], f x)) l).
Definition struct (name : string) (fields : list (string * debug_tree)) : debug_tree :=
  DNode (DStruct (bytes name)) (map (fun x => (bytes (fst x), snd x)) fields).
Definition bool_debug (b : bool) : debug_tree := DUnit (if b then bytes "true" else bytes "false").
(** color.rs:8 *)
Definition color_debug (c : color) : debug_tree := DUnit (bytes (match c with Black => "Black" | White => "White" end)).
(** piece_kind.rs:8 *)
Definition pk_debug (k : piece_kind) : debug_tree := DUnit (bytes (match k with
  | Pawn => "Pawn" | Lance => "Lance" | Knight => "Knight" | Silver => "Silver" | Gold => "Gold" | Bishop => "Bishop"
  | Rook => "Rook" | King => "King" | ProPawn => "ProPawn" | ProLance => "ProLance" | ProKnight => "ProKnight"
  | ProSilver => "ProSilver" | ProBishop => "ProBishop" | ProRook => "ProRook" end)).
(** square.rs:10, square.rs:287 *)
Definition sq_debug (s : square) : debug_tree := tuple "Square" (DNum (sq_repr s)).
Definition os_debug (s : option_square) : debug_tree := tuple "OptionSquare" (DNum (os_repr s)).
(** piece.rs:19, piece.rs:30 *)
Definition piece_debug (p : piece) : debug_tree := tuple "Piece" (DNum (piece_repr p)).
Definition op_debug (p : option_piece) : debug_tree := tuple "OptionPiece" (DNum (op_repr p)).
(** hand.rs:11 *)
Definition hand_debug (h : hand) : debug_tree := tuple "Hand" (list_of DNum (hand_bytes h)).
(** mv.rs:8, mv.rs:177, mv.rs:304 *)
Definition move_debug (m : move) : debug_tree :=
  match m with
  | Normal from to promote => struct "Normal" [("from", sq_debug from); ("to", sq_debug to); ("promote", bool_debug promote)]
  | Drop p to => struct "Drop" [("piece", piece_debug p); ("to", sq_debug to)]
  end.
Definition cm_debug (m : compact_move) : debug_tree := tuple "CompactMove" (DNum (cm_repr m)).
Definition ocm_debug (m : option_compact_move) : debug_tree := tuple "OptionCompactMove" (DNum (ocm_repr m)).
(** bitboard.rs:10, bitboard.rs:529 *)
Definition bb_debug (b : bitboard) : debug_tree := tuple "Bitboard" (list_of DNum [bb0 b; bb1 b]).
Definition bs_debug (b : byte_swapped) : debug_tree := tuple "ByteSwappedBitboard" (list_of DNum [bs0 b; bs1 b]).
(** illegal_move_kind.rs:8, illegal_move_kind.rs:80 *)
Definition imk_debug (k : illegal_move_kind) : debug_tree := DUnit (bytes (match k with
  | TwoPawns => "TwoPawns" | IgnoredCheck => "IgnoredCheck" | DropPawnMate => "DropPawnMate" | DropStuck => "DropStuck"
  | NormalStuck => "NormalStuck" | GameFinished => "GameFinished" | IncorrectMove => "IncorrectMove" end)).
Definition rui_debug (r : result_unit_imk) : debug_tree := tuple "ResultUnitIllegalMoveKind" (DNum (rui_repr r)).
(** game_resolution.rs:6, game_resolution.rs:57 *)
Definition gr_debug (r : game_resolution) : debug_tree := DUnit (bytes (match r with
  | BlackWins => "BlackWins" | WhiteWins => "WhiteWins" | Draw => "Draw" | Rematch => "Rematch" | Aborted => "Aborted" end)).
Definition ogr_debug (r : option_game_resolution) : debug_tree := tuple "OptionGameResolution" (DNum (ogr_repr r)).
(** legality.rs:10 *)
Definition ps_debug (s : position_status) : debug_tree := DUnit (bytes (match s with
  | PSBlackWins => "BlackWins" | PSWhiteWins => "WhiteWins" | PSDraw => "Draw" | PSInProgress => "InProgress" | PSInvalid => "Invalid" end)).
(** position.rs:374 *)
Definition pp_debug (s : partial_position) : debug_tree := struct "PartialPosition" [
  ("side", color_debug (pp_side s)); ("ply", DNum (pp_ply s)); ("hands", list_of hand_debug (pp_hands s));
  ("board", list_of op_debug (pp_board s)); ("player_bb", list_of bb_debug (pp_player_bb s));
  ("piece_bb", list_of bb_debug (pp_piece_bb s)); ("last_move", ocm_debug (pp_last_move s));
  ("king_square", list_of os_debug (pp_king_square s))].
(** position.rs:100 *)
Definition pos_debug (p : position) : debug_tree := struct "Position" [
  ("initial", pp_debug (pos_initial p)); ("inner", pp_debug (pos_inner p)); ("moves", list_of move_debug (pos_moves p))].
(** position.rs:13, position.rs:57 *)
Definition game_debug (g : game_of position) : debug_tree :=
  struct "Game" [("inner", pos_debug (g_inner g)); ("resolution", ogr_debug (g_resolution g))].
Definition partial_game_debug (g : game_of partial_position) : debug_tree :=
  struct "PartialGame" [("inner", pp_debug (g_inner g)); ("resolution", ogr_debug (g_resolution g))].
