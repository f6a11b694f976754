(** A client of the library: attacks, check and drops of pawns worked out on whole bitboards by calls to the library, without looking at
    single squares. Nothing here is in the library; it is what its bitboards are for. *)
From Verif Require Export SpecRules.

Definition whole : bitboard := bb_not bb_empty.
(** every member moved by one step. The board that [shift_right] gives may have a bit that is no square (C17): it is masked away. *)
Definition translate (P : profile) (c : color) (d : Z * Z) (b : bitboard) : res bitboard :=
  let sign := match c with Black => 1 | White => -1 end%Z in
  let x := (sign * fst d)%Z in
  let y := (sign * snd d)%Z in
  b <- (if (0 <=? x)%Z then bb_shift_left P b (Z.to_N x) else r <- bb_shift_right P b (Z.to_N (- x));; Ret (bb_and r whole));;
  if (0 <=? y)%Z then bb_shift_down P b (Z.to_N y) else bb_shift_up P b (Z.to_N (- y)).
(** [n] steps, going on over vacant squares only *)
Fixpoint fill (P : profile) (c : color) (d : Z * Z) (vacant : bitboard) (n : nat) (b acc : bitboard) : res bitboard :=
  match n with
  | O => Ret acc
  | S n => g <- translate P c d b;; fill P c d vacant n (bb_and g vacant) (bb_or acc g)
  end.
Fixpoint union (fs : list (res bitboard)) : res bitboard :=
  match fs with [] => Ret bb_empty | f :: rest => a <- f;; b <- union rest;; Ret (bb_or a b) end.
(** the squares that pieces of a kind on the members of [b] attack *)
Definition attacks_from (P : profile) (c : color) (k : piece_kind) (vacant b : bitboard) : res bitboard :=
  union (map (fun d => translate P c d b) (steps k) ++ map (fun d => fill P c d vacant 8 b bb_empty) (slides k)).
Definition all_kinds : list piece_kind :=
  [Pawn; Lance; Knight; Silver; Gold; Bishop; Rook; King; ProPawn; ProLance; ProKnight; ProSilver; ProBishop; ProRook].
(** the squares a player attacks *)
Definition attack_set (P : profile) (s : partial_position) (c : color) : res bitboard :=
  vacant <- vacant_bitboard s;;
  union (map (fun k => b <- piece_bitboard P s (piece_of k c);; attacks_from P c k vacant b) all_kinds).
Definition in_check (P : profile) (s : partial_position) (c : color) : res bool :=
  kings <- piece_bitboard P s (piece_of King c);;
  attacked <- attack_set P s (opponent c);;
  Ret (negb (bb_is_empty (bb_and kings attacked))).
(** where the piece on a square can go, without regard to check *)
Definition destinations (P : profile) (s : partial_position) (from : square) : res bitboard :=
  x <- piece_at P s from;;
  match x with
  | None => Ret bb_empty
  | Some p =>
      vacant <- vacant_bitboard s;;
      own <- player_bitboard P s (color_of p);;
      b <- bb_single P from;;
      t <- attacks_from P (color_of p) (kind_of p) vacant b;;
      Ret (bb_andnot own t)
  end.
(** where a player can drop a pawn: vacant squares, not on the last rank, on files without a pawn of theirs *)
Definition nine_files : list N := [1; 2; 3; 4; 5; 6; 7; 8; 9].
Definition pawn_drops (P : profile) (s : partial_position) (c : color) : res bitboard :=
  vacant <- vacant_bitboard s;;
  pawns <- piece_bitboard P s (piece_of Pawn c);;
  free <- union (map (fun f => p <- bb_get_file_unchecked P pawns f;;
                                 bb_from_file_unchecked P f (if p =? 0 then match c with Black => 510 | White => 255 end else 0)) nine_files);;
  Ret (bb_and vacant free).

(** ** What is said of them *)
(** a square some piece of [c] attacks *)
Definition attacked_by (b : board) (c : color) (t : square) : bool := existsb (fun s => owned_by b c s and attacks b s t) squares.
(** the members of [b] moved by one step *)
Definition moved (P : profile) (c : color) (d : Z * Z) (b : bitboard) (t : square) : Prop :=
  exists s, valid_square s /\ bb_contains P b s = Ret true /\ step c s d = Some t.
(** the same without the mask *)
Definition careless (P : profile) (b : bitboard) : res bitboard :=
  l <- bb_shift_left P b 1;; r <- bb_shift_right P b 1;; u <- bb_shift_up P b 1;; d <- bb_shift_down P b 1;; Ret (bb_or (bb_or l r) (bb_or u d)).
