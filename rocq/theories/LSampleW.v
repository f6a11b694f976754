(** Numbers of legal moves, to compare the rules of [SpecRules] with counts well known among shogi programmers (recalled,
    not taken from /repo): 30 for the first ply of the game, 593 for the position with the most legal moves, 207 for a
    position of a real game that is used to test move generators. *)
From Verif Require Import SpecRules SpecRecord LSampleR.

Definition from_text (t : list N) : partial_position := match read_record Debug t with Ret (Some q) => inner q | _ => pp_empty end.
Definition number_legal (s : partial_position) : N := N.of_nat (length (legal_moves s)).
Definition most_moves : list N := bytes "sfen R8/2K1S1SSk/4B4/9/9/9/9/9/1L1L1L3 b RBGSNLP3g3n17p 1".
Definition middle_game : list N := bytes "sfen l6nl/5+P1gk/2np1S3/p1p4Pp/3P2Sp1/1PPb2P1P/P5GS1/R8/LN4bKL w GR5pnsg 1".
