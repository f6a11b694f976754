(** The two symmetries of shogi: the board turned round with the players exchanged, and the board reflected from left to right. *)
From Coq Require Export Permutation.
From Verif Require Export SpecRules SpecRepeat SpecAttack SpecLaws.

(** each player in place of the other *)
Definition other_side (st : position_status) : position_status :=
  match st with PSBlackWins => PSWhiteWins | PSWhiteWins => PSBlackWins | st => st end.
(** the files from 1 to 9 become those from 9 to 1 *)
Definition reflection : apos -> apos := relabel left_right left_right.
Definition reflect_move : move -> move := relabel_move left_right.
(** two calls give bitboards of which one is the other reflected *)
Definition reflected (P : profile) (x y : res bitboard) : Prop := exists b b', x = Ret b /\ y = Ret b' /\
  forall s, valid_square s -> bb_contains P b' (left_right s) = bb_contains P b s.
(** two calls answer, the second with the image of the answer of the first *)
Definition calls_agree {A} (f : A -> A) (x y : res A) : Prop := exists v, x = Ret v /\ y = Ret (f v).
(** two calls list the same moves, up to their order *)
Definition lists_agree (f : move -> move) (x y : res (list move)) : Prop := exists l l', x = Ret l /\ y = Ret l' /\ NoDup l' /\ Permutation l' (map f l).
