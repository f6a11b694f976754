(** Specification vocabulary for squares, pieces, kinds, moves and hands. Nothing here uses the
    functions of the model: only its data types, read according to the documentation of the
    representations (square.rs:3-8, piece.rs:11, piece_kind.rs:9-108, mv.rs:171-175, hand.rs:4-9). *)
From Verif Require Import Machine MColor MPieceKind MPiece MSquare MMove MHand.

(** The integer types *)
Definition is_u8 (n : N) : Prop := n < 256.
Definition is_u16 (n : N) : Prop := n < 65536.
Definition is_i8 (z : Z) : Prop := (-128 <= z <= 127)%Z.

(** ** Squares: points of the 9x9 board. The index of file f, rank r is 9*(f-1) + r. *)
Definition on_board (f r : N) : Prop := 1 <= f <= 9 /\ 1 <= r <= 9.
Definition valid_square (s : square) : Prop := 1 <= sq_repr s <= 81.
Definition file_of (s : square) : N := (sq_repr s - 1) / 9 + 1.
Definition rank_of (s : square) : N := (sq_repr s - 1) mod 9 + 1.
Definition square_at (f r : N) : square := Square (9 * (f - 1) + r).
(** 180-degree rotation *)
Definition rotate (s : square) : square := square_at (10 - file_of s) (10 - rank_of s).
(** How player [c] sees a coordinate *)
Definition seen_by (c : color) (x : N) : N := match c with Black => x | White => 10 - x end.
Definition opponent (c : color) : color := match c with Black => White | White => Black end.

(** ** Pieces *)
Definition valid_piece (p : piece) : Prop := 1 <= piece_repr p <= 14 \/ 17 <= piece_repr p <= 30.
(** 1-based position of a kind in the documented order *)
Definition kind_number (k : piece_kind) : N :=
  match k with
  | Pawn => 1 | Lance => 2 | Knight => 3 | Silver => 4 | Gold => 5 | Bishop => 6 | Rook => 7
  | King => 8 | ProPawn => 9 | ProLance => 10 | ProKnight => 11 | ProSilver => 12
  | ProBishop => 13 | ProRook => 14
  end.
Definition piece_of (k : piece_kind) (c : color) : piece :=
  Piece (kind_number k + match c with Black => 0 | White => 16 end).
Definition kind_of (p : piece) : piece_kind :=
  match piece_repr p with
  | 1 | 17 => Pawn | 2 | 18 => Lance | 3 | 19 => Knight | 4 | 20 => Silver | 5 | 21 => Gold
  | 6 | 22 => Bishop | 7 | 23 => Rook | 8 | 24 => King | 9 | 25 => ProPawn | 10 | 26 => ProLance
  | 11 | 27 => ProKnight | 12 | 28 => ProSilver | 13 | 29 => ProBishop | _ => ProRook
  end.
Definition color_of (p : piece) : color := if piece_repr p <=? 14 then Black else White.

(** The promotion rule of shogi *)
Inductive promotes_to : piece_kind -> piece_kind -> Prop :=
| pr_pawn : promotes_to Pawn ProPawn
| pr_lance : promotes_to Lance ProLance
| pr_knight : promotes_to Knight ProKnight
| pr_silver : promotes_to Silver ProSilver
| pr_bishop : promotes_to Bishop ProBishop
| pr_rook : promotes_to Rook ProRook.

(** The kind a piece has when it is in hand *)
Definition base_kind (k : piece_kind) : piece_kind :=
  match k with
  | ProPawn => Pawn | ProLance => Lance | ProKnight => Knight | ProSilver => Silver
  | ProBishop => Bishop | ProRook => Rook | k => k
  end.

(** The kinds that can be in hand *)
Definition hand_kinds : list piece_kind := [Pawn; Lance; Knight; Silver; Gold; Bishop; Rook].

(** ** Moves *)
Definition valid_move (m : move) : Prop :=
  match m with
  | Normal from to _ => valid_square from /\ valid_square to
  | Drop p to => valid_piece p /\ valid_square to
  end.
(** mv.rs:171-173: the documented packing *)
Definition packed (m : move) : N :=
  match m with
  | Normal from to promote => (if promote then 32768 else 0) + sq_repr from * 256 + sq_repr to
  | Drop p to => piece_repr p * 256 + 128 + sq_repr to
  end.
(** A compact move that encodes some move *)
Definition valid_compact (c : compact_move) : Prop := exists m, valid_move m /\ cm_repr c = packed m.

(** ** Hands: eight bytes, the last one unused *)
Definition valid_hand (h : hand) : Prop :=
  length (hand_bytes h) = 8%nat /\ Forall (fun b => b < 256) (hand_bytes h) /\
  nth 7 (hand_bytes h) 0 = 0.
(** Number of pieces of a hand kind *)
Definition in_hand (h : hand) (k : piece_kind) : N := nth (N.to_nat (kind_number k - 1)) (hand_bytes h) 0.
