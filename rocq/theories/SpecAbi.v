(** Specification of the C header: what it must declare for the library to be called through it. *)
From Coq Require Import String.
From Verif Require Export MCAbi MResolution MLegality SpecBase.

(** the alignments [uint64_t] has on real targets *)
Definition word_alignments : list N := [1; 2; 4; 8].

Definition complete (x : shape) : Prop := x <> Unknown.
(** the caller and the callee agree on every argument and on the result *)
Definition same_call (A : N) (r : rexport) (p : cproto) : Prop :=
  map (rust_shape 9 A) (re_args r) = map (c_shape 9 A) (cp_args p) /\
  rust_shape 9 A (re_ret r) = c_shape 9 A (cp_ret p) /\
  Forall complete (map (c_shape 9 A) (cp_args p)) /\ complete (c_shape 9 A (cp_ret p)).

Open Scope string_scope.
Definition color_name (c : color) : string := match c with Black => "Black" | White => "White" end.
Definition resolution_name (r : game_resolution) : string :=
  match r with
  | BlackWins => "BlackWins" | WhiteWins => "WhiteWins" | Draw => "Draw" | Rematch => "Rematch" | Aborted => "Aborted"
  end.
Definition illegal_name (i : illegal_move_kind) : string :=
  match i with
  | TwoPawns => "TwoPawns" | IgnoredCheck => "IgnoredCheck" | DropPawnMate => "DropPawnMate" | DropStuck => "DropStuck"
  | NormalStuck => "NormalStuck" | GameFinished => "GameFinished" | IncorrectMove => "IncorrectMove"
  end.
Definition kind_name (k : piece_kind) : string :=
  match k with
  | Pawn => "Pawn" | Lance => "Lance" | Knight => "Knight" | Silver => "Silver" | Gold => "Gold" | Bishop => "Bishop"
  | Rook => "Rook" | King => "King" | ProPawn => "ProPawn" | ProLance => "ProLance" | ProKnight => "ProKnight"
  | ProSilver => "ProSilver" | ProBishop => "ProBishop" | ProRook => "ProRook"
  end.
(** the two functions whose result type the header leaves incomplete *)
Definition uncallable (name : string) : Prop := name = "Square_from_u8" \/ name = "Square_shift".

(** Where the fields of [PartialPosition] are, how many bytes each takes, and what the whole takes *)
Definition position_fields (A : N) : list (string * (N * N)) :=
  let bb := match A with 1 => 101 | 2 => 102 | _ => 104 end in
  let last := match A with 1 | 2 => 358 | _ => 360 end in
  [("side", (0, 1)); ("ply", (2, 2)); ("hands", (4, 16)); ("board", (20, 81)); ("player_bb", (bb, 32));
   ("piece_bb", (bb + 32, 224)); ("last_move", (last, 2)); ("king_square", (last + 2, 2))].
Close Scope string_scope.
Definition position_size (A : N) : N := match A with 1 | 2 => 362 | 4 => 364 | _ => 368 end.
Definition position_align (A : N) : N := match A with 1 => 2 | _ => A end.

(** the fields of a struct with these layouts, laid out one after the other *)
Definition laid_out (names : list string) (ls : list lay) : list (string * (N * N)) :=
  combine names (combine (lay_place 0 ls) (map lay_size ls)).
(** a layout is sound: every scalar inside, aligned as the scalar needs, and no two overlapping *)
Definition sound_layout (A : N) (l : lay) : Prop :=
  Forall (fun x => fst x + snd x <= lay_size l /\ fst x mod (if snd x =? 8 then A else snd x) = 0) (lay_scalars l) /\
  (forall i j x y, nth_error (lay_scalars l) i = Some x -> nth_error (lay_scalars l) j = Some y -> (i < j)%nat ->
     fst x + snd x <= fst y).
