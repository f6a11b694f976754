(** What the words of a bitboard mean to code that walks through their bits, valid or not: used to say which of the
    conditions in the "Safety" sections of bitboard.rs:197-343 are needed for safety. *)
From Verif Require Import Machine MSquare MBitboard SpecBase SpecBoard.

(** The positions of the bits that are set, in increasing order, in the 128-bit number made of the two words *)
Definition set_bits (b : bitboard) : list N := filter (N.testbit (bb0 b + 2 ^ 64 * bb1 b)) (range 0 128).

(** Bits 0 to 62 stand for the squares of files 1 to 7, bits 64 to 81 for the squares of files 8 and 9. Bit 63 is set in no
    valid board: a build with debug assertions notices it, any other takes it for 7I. To arrive at bit 82 or above is undefined. *)
Definition visit (P : profile) (t : N) : res square :=
  if t <? 63 then Ret (square_at (t / 9 + 1) (t mod 9 + 1))
  else if t =? 63 then (if debug_assertions P then Panic else Ret (square_at 7 9))
  else if t <? 82 then Ret (square_at ((t - 64) / 9 + 8) ((t - 64) mod 9 + 1))
  else UB.

(** Walking through a whole board; 129 steps are enough for any two words *)
Definition walk (P : profile) (b : bitboard) : res (list square) :=
  r <- bb_collect P 129 b;; Ret (match r with Some (_, l) => l | None => [] end).
