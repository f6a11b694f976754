(** Specification of which order the [Ord] impls give and of what the hashes distinguish: every value has a key, a list
    of numbers, and values are ordered as their keys are in the dictionary order. *)
From Verif Require Import Machine MColor MPieceKind MPiece MSquare MMove MHand MBitboard MResolution MLegality MPosition
  SpecBase SpecPos.

(** ** Dictionary order: [u] is a proper beginning of [v], or at the first difference the number of [u] is smaller. *)
Definition before (u v : list N) : Prop :=
  exists p, (exists y v', u = p /\ v = p ++ y :: v') \/
            (exists x u' y v', u = p ++ x :: u' /\ v = p ++ y :: v' /\ x < y).
Definition ordered_by {A} (V : A -> Prop) (cmp : A -> A -> comparison) (key : A -> list N) : Prop :=
  forall a b, V a -> V b ->
    (cmp a b = Lt <-> before (key a) (key b)) /\
    (cmp a b = Gt <-> before (key b) (key a)) /\
    (cmp a b = Eq <-> key a = key b).
(** The calls made on the hasher tell the key, even when more calls follow, and are the same for equal keys. *)
Definition hash_tells {A T} (V : A -> Prop) (hash : A -> list T) (key : A -> list N) : Prop :=
  forall a b, V a -> V b ->
    (forall x y, hash a ++ x = hash b ++ y -> key a = key b) /\ (key a = key b -> hash a = hash b).

(** ** Keys *)
Definition k_color (c : color) : list N := [match c with Black => 1 | White => 2 end].
Definition k_kind (k : piece_kind) : list N := [kind_number k].
Definition k_resolution (g : game_resolution) : list N :=
  [match g with BlackWins => 1 | WhiteWins => 2 | Draw => 3 | Rematch => 4 | Aborted => 5 end].
Definition k_illegal (k : illegal_move_kind) : list N :=
  [match k with TwoPawns => 1 | IgnoredCheck => 2 | DropPawnMate => 3 | DropStuck => 4 | NormalStuck => 5
              | GameFinished => 6 | IncorrectMove => 7 end].
Definition k_status (s : position_status) : list N :=
  [match s with PSBlackWins => 1 | PSWhiteWins => 2 | PSDraw => 3 | PSInProgress => 4 | PSInvalid => 5 end].
(** squares by file, then by rank *)
Definition k_square (s : square) : list N := [file_of s; rank_of s].
(** pieces by color, then by kind *)
Definition k_piece (p : piece) : list N := k_color (color_of p) ++ k_kind (kind_of p).
(** [None] first *)
Definition k_option {A} (n : nat) (key : A -> list N) (o : option A) : list N :=
  match o with Some x => key x | None => repeat 0 n end.
(** moves of pieces on the board first, by start, target, promotion; then drops, by piece and target *)
Definition k_move (m : move) : list N :=
  match m with
  | Normal from to promote => 0 :: k_square from ++ k_square to ++ [if promote then 1 else 0]
  | Drop p to => 1 :: k_piece p ++ k_square to ++ [0]
  end.
(** compact moves by their high byte, then by their low byte *)
Definition k_compact (m : move) : list N :=
  match m with
  | Normal from to promote => [(if promote then 128 else 0) + sq_repr from; sq_repr to]
  | Drop p to => [piece_repr p; 128 + sq_repr to]
  end.
(** hands by the number of pawns, then lances, ... *)
Definition k_hand (h : hand) : list N := map (in_hand h) hand_kinds.
(** bitboards: first by whether 7I is a member, then 7H, ..., 1A, 9I, ..., 8A *)
Definition k_bitboard (P : profile) (b : bitboard) : list N :=
  map (fun n => match bb_contains P b (Square (N.of_nat n)) with Ret true => 1 | _ => 0 end) (rev (seq 1 63) ++ rev (seq 64 18)).
(** byte-swapped bitboards: the eight squares 8H, ..., 8A, then the next eight by number, ... *)
Definition swapped_squares : list nat :=
  rev (seq 64 8) ++ rev (seq 72 8) ++ rev (seq 80 2) ++
  rev (seq 1 8) ++ rev (seq 9 8) ++ rev (seq 17 8) ++ rev (seq 25 8) ++ rev (seq 33 8) ++ rev (seq 41 8) ++ rev (seq 49 8) ++ rev (seq 57 7).
Definition k_swapped (P : profile) (b : bitboard) : list N :=
  map (fun n => match bb_contains P b (Square (N.of_nat n)) with Ret true => 1 | _ => 0 end) swapped_squares.
(** positions by side, ply, Black's hand, White's hand, the pieces on 1A, 1B, ..., 9I, the last move as a compact move.
    The king positions do not count (see C42). *)
Definition k_apos (a : apos) : list N :=
  k_color (a_side a) ++ [a_ply a] ++ map (a_hand a Black) hand_kinds ++ map (a_hand a White) hand_kinds ++
  flat_map (fun sq => k_option 2 (fun x => k_color (snd x) ++ k_kind (fst x)) (a_board a sq)) squares ++
  k_option 2 k_compact (a_last a).
(** games: initial position, current position, the moves (fewer moves first), the resolution *)
Definition k_moves (ms : list move) : list N := flat_map (fun m => 1 :: k_move m) ms ++ [0].

(** a value together with what its observers show *)
Definition on_fst {A B T} (f : A -> A -> T) (x y : A * B) : T := f (fst x) (fst y).
Definition shown (P : profile) (x : partial_position * apos) : Prop := reachable P (fst x) /\ sees P (fst x) (snd x).
Definition k_shown (x : partial_position * apos) : list N := k_apos (snd x).
Definition shown_pos (P : profile) (x : position * (apos * apos)) : Prop :=
  shown P (initial_position (fst x), fst (snd x)) /\ shown P (inner (fst x), snd (snd x)) /\ Forall valid_move (moves (fst x)).
Definition k_pos (x : position * (apos * apos)) : list N :=
  k_apos (fst (snd x)) ++ k_apos (snd (snd x)) ++ k_moves (moves (fst x)).
Definition shown_game {A B} (S : A * B -> Prop) (x : game_of A * (B * option game_resolution)) : Prop :=
  S (game_position (fst x), fst (snd x)) /\ game_resolution_of (fst x) = Ret (snd (snd x)).
Definition k_game {A B} (key : A * B -> list N) (x : game_of A * (B * option game_resolution)) : list N :=
  key (game_position (fst x), fst (snd x)) ++ k_option 1 k_resolution (snd (snd x)).
