(** Model of /repo/shogi_core/build.rs: the constants the build script generates, first as names and arguments (this is what
    the rest of the model uses), then as the text of the two files it writes. *)
From Coq Require Import DecimalString.
From Verif Require Export Machine MColor MPieceKind MPiece MSquare.

(** build.rs:14 [color_table]; the second component is the identifier after [Color::] *)
Definition color_table : list (string * color) := [("B", Black); ("W", White)]%string.

(** build.rs:15-30 [piece_table]; the second component is the identifier after [PieceKind::] *)
Definition piece_table : list (string * piece_kind) :=
  [("P", Pawn); ("L", Lance); ("N", Knight); ("S", Silver); ("G", Gold); ("B", Bishop);
   ("R", Rook); ("K", King); ("PP", ProPawn); ("PL", ProLance); ("PN", ProKnight);
   ("PS", ProSilver); ("PB", ProBishop); ("PR", ProRook)]%string.

(** build.rs:31-39 and 48-62: for each color, for each kind, one line
    [pub const {c}_{k}: Piece = Piece::new(PieceKind::{..}, Color::{..});] *)
Definition piece_consts : list (string * (piece_kind * color)) :=
  flat_map (fun c => map (fun k => ((fst c ++ "_" ++ fst k)%string, (snd k, snd c))) piece_table)
           color_table.

(** Decimal text of a one-digit number ([{}] of [file], which is in 1..=9) *)
Definition digit_string (n : N) : string := String (ascii_of_N (48 + n)) EmptyString.

(** build.rs:75-85 and 94-108: for index in 0..81,
    [pub const SQ_{file}{rank}: Square = unsafe { Square::from_u8_unchecked({index + 1}) };] *)
Definition square_consts : list (string * N) :=
  map (fun index =>
         let file := index / 9 + 1 in
         let rank := index mod 9 in
         (("SQ_" ++ digit_string file ++ String (ascii_of_N (rank + byte "A")) EmptyString)%string,
          index + 1))
      (range 0 81).

Fixpoint assoc {A} (name : string) (l : list (string * A)) : option A :=
  match l with
  | [] => None
  | (n, v) :: t => if String.eqb n name then Some v else assoc name t
  end.

(** Value of the generated constant [Piece::<name>] ([Panic] if there is no such constant: the
    Rust code would not compile). *)
Definition piece_const (P : profile) (name : string) : res piece :=
  match assoc name piece_consts with
  | Some (k, c) => piece_new P k c
  | None => Panic
  end.

(** Value of the generated constant [Square::<name>]. *)
Definition square_const (name : string) : res square :=
  match assoc name square_consts with
  | Some n => sq_from_u8_unchecked n
  | None => Panic
  end.

(** ** The text of piece_consts.rs and square_consts.rs *)

(** The identifiers in the second components of [color_table] and [piece_table] *)
Definition color_ident (c : color) : string := match c with Black => "Black" | White => "White" end.
Definition kind_ident (k : piece_kind) : string :=
  match k with
  | Pawn => "Pawn" | Lance => "Lance" | Knight => "Knight" | Silver => "Silver" | Gold => "Gold"
  | Bishop => "Bishop" | Rook => "Rook" | King => "King" | ProPawn => "ProPawn" | ProLance => "ProLance"
  | ProKnight => "ProKnight" | ProSilver => "ProSilver" | ProBishop => "ProBishop" | ProRook => "ProRook"
  end.
(** [{}] of an integer *)
Definition decimal_string (n : N) : string := NilZero.string_of_uint (N.to_uint n).
(** [{}] of [(rank + b'A') as char] *)
Definition rank_string (rank : N) : string := String (ascii_of_N (rank + byte "A")) EmptyString.
Definition newline : string := String (ascii_of_N 10) EmptyString.

Open Scope string_scope.
(** build.rs:34-38 and 53-55 *)
Definition piece_line (c : string * color) (k : string * piece_kind) : string :=
  "    pub const " ++ fst c ++ "_" ++ fst k ++ ": Piece = Piece::new(PieceKind::" ++ kind_ident (snd k) ++
  ", Color::" ++ color_ident (snd c) ++ ");" ++ newline.
(** build.rs:6-65 [generate_piece_consts]: the bytes written to the file *)
Definition piece_consts_rs : string :=
  "use crate::{Color, Piece, PieceKind};
// Constants in Piece
#[doc(hidden)]
impl Piece {
" ++
  String.concat "" (flat_map (fun c => map (fun k => piece_line c k) piece_table) color_table) ++
  "}

/// Constants of type [`Piece`].
pub mod piece {
    use super::*;
" ++
  String.concat "" (flat_map (fun c => map (fun k =>
    "    /// Also available as `Piece::" ++ fst c ++ "_" ++ fst k ++ "`." ++ newline ++ piece_line c k) piece_table) color_table) ++
  "}
".

(** build.rs:78-84 and 98-107 *)
Definition square_line (index : N) : string :=
  let file := (index / 9 + 1)%N in
  let rank := (index mod 9)%N in
  "    pub const SQ_" ++ decimal_string file ++ rank_string rank ++ ": Square = unsafe { Square::from_u8_unchecked(" ++
  decimal_string (index + 1) ++ ") };" ++ newline.
(** build.rs:67-112 [generate_square_consts] *)
Definition square_consts_rs : string :=
  "use crate::Square;
// Constants in Square
#[doc(hidden)]
impl Square {
" ++
  String.concat "" (map square_line (range 0 81)) ++
  "}

/// Constants of type [`Square`].
pub mod square {
    use super::Square;
" ++
  String.concat "" (map (fun index =>
    let file := (index / 9 + 1)%N in
    let rank := (index mod 9)%N in
    "    /// Also available as `Square::SQ_" ++ decimal_string file ++ rank_string rank ++ "`." ++ newline ++ square_line index) (range 0 81)) ++
  "}
".
Close Scope string_scope.
