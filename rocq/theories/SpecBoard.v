(** Specification vocabulary for bitboards: sets of squares. *)
From Verif Require Import Machine MSquare MBitboard SpecBase.

(** bitboard.rs:3-16: 63 bits of word 0 for files 1..7 and 18 bits of word 1 for files 8, 9; no other bit is set. *)
Definition valid_bb (b : bitboard) : Prop := bb0 b < 2 ^ 63 /\ bb1 b < 2 ^ 18.

(** Two words of 64 bits *)
Definition u64_pair (x y : N) : Prop := x < 2 ^ 64 /\ y < 2 ^ 64.

(** Byte [k] of a number, counted from the least significant *)
Definition byte_of (v k : N) : N := (v / 256 ^ k) mod 256.

(** Squares listed in strictly ascending order of index *)
Fixpoint ascending (l : list square) : Prop :=
  match l with
  | [] => True
  | s :: t => (forall u, In u t -> sq_repr s < sq_repr u) /\ ascending t
  end.

(** The bitboards a caller can obtain, [shift_right] aside (see C17). For the unsafe functions the documented
    conditions (bitboard.rs:207-211, 283, 299, 315) are premises. *)
Inductive built (P : profile) : bitboard -> Prop :=
| built_empty : built P bb_empty
| built_single s b : valid_square s -> bb_single P s = Ret b -> built P b
| built_or a b : built P a -> built P b -> built P (bb_or a b)
| built_and a b : built P a -> built P b -> built P (bb_and a b)
| built_xor a b : built P a -> built P b -> built P (bb_xor a b)
| built_andnot a b : built P a -> built P b -> built P (bb_andnot a b)
| built_not a : built P a -> built P (bb_not a)
| built_or_square a s b : built P a -> valid_square s -> bb_or_square P a s = Ret b -> built P b
| built_and_square a s b : built P a -> valid_square s -> bb_and_square P a s = Ret b -> built P b
| built_xor_square a s b : built P a -> valid_square s -> bb_xor_square P a s = Ret b -> built P b
| built_flip a b : built P a -> bb_flip P a = Ret b -> built P b
| built_pop a b o : built P a -> bb_pop P a = Ret (b, o) -> built P b
| built_from_file f p b : 1 <= f <= 9 -> p < 512 -> bb_from_file_unchecked P f p = Ret b -> built P b
| built_shift_down a d b : built P a -> d <= 9 -> bb_shift_down P a d = Ret b -> built P b
| built_shift_up a d b : built P a -> d <= 9 -> bb_shift_up P a d = Ret b -> built P b
| built_shift_left a d b : built P a -> d <= 9 -> bb_shift_left P a d = Ret b -> built P b.
