(** Specification of a C program that uses the library: where the bytes of a position are, and what the calls do to
    abstract positions. *)
From Verif Require Export SpecAbi SpecPos SpecSfen SpecRuntime SpecBoard MCClient.

(** ** Bytes *)
(** the [w] bytes at [a] are the unsigned number [v] *)
Definition number_at (E : endian) (m : mem) (a w v : N) : Prop :=
  forall i, i < w -> m (a + i) = Some (byte_of v (match E with Little => i | Big => w - 1 - i end)).
(** what [struct.field] means: the address of a field *)
Definition field (A a : N) (name : string) : N :=
  a + match look name (position_fields A) with Some (o, _) => o | None => 0 end.
Definition index_of (c : color) : N := match c with Black => 0 | White => 1 end.
Definition piece_byte (x : option (piece_kind * color)) : N := match x with Some y => piece_repr (the_piece y) | None => 0 end.
Definition square_byte (x : option square) : N := match x with Some sq => sq_repr sq | None => 0 end.
Definition move_number (x : option move) : N := match x with Some mv => packed mv | None => 0 end.
(** the bitboard of a set of squares: files 1 to 7 in the first word, 8 and 9 in the second *)
Definition board_words (f : square -> bool) : bitboard :=
  let word lo hi := fold_right N.add 0 (map (fun sq => if f sq && (lo <=? sq_repr sq) && (sq_repr sq <=? hi) then 2 ^ (sq_repr sq - lo) else 0) squares) in
  Bitboard (word 1 63) (word 64 81).
Definition bitboard_at (E : endian) (m : mem) (a : N) (f : square -> bool) : Prop :=
  number_at E m a 8 (bb0 (board_words f)) /\ number_at E m (a + 8) 8 (bb1 (board_words f)).

Definition of_color (x : apos) (c : color) (sq : square) : bool :=
  match a_board x sq with Some (_, d) => same_color d c | None => false end.
Definition of_kind (x : apos) (k : piece_kind) (sq : square) : bool :=
  match a_board x sq with Some (l, _) => same_kind l k | None => false end.
(** the struct at [a] shows the position [x] *)
Definition shows (A : N) (E : endian) (m : mem) (a : N) (x : apos) : Prop :=
  m (field A a "side") = Some (match a_side x with Black => 1 | White => 2 end) /\
  number_at E m (field A a "ply") 2 (a_ply x) /\
  (forall c k, In k hand_kinds -> m (field A a "hands" + 8 * index_of c + (kind_number k - 1)) = Some (a_hand x c k)) /\
  (forall sq, valid_square sq -> m (field A a "board" + (sq_repr sq - 1)) = Some (piece_byte (a_board x sq))) /\
  (forall c, bitboard_at E m (field A a "player_bb" + 16 * index_of c) (of_color x c)) /\
  (forall k, bitboard_at E m (field A a "piece_bb" + 16 * (kind_number k - 1)) (of_kind x k)) /\
  number_at E m (field A a "last_move") 2 (move_number (a_last x)) /\
  (forall c, m (field A a "king_square" + index_of c) = Some (square_byte (a_king x c))).

Definition aligned (A a : N) : Prop := exists k, a = k * position_align A.
(** only the addresses of the struct may differ *)
Definition only_changes (m m' : mem) (a n : N) : Prop :=
  (forall x, ~ in_region a n x -> m' x = m x) /\ forall x, m' x = None <-> m x = None.

(** ** A C program over abstract positions *)
Record client := Client { cl_pos : nat -> option apos; cl_text : nat -> option (list N) }.
Definition client_start : client := Client (fun _ => None) (fun _ => None).
Definition set_pos (st : client) (i : nat) (x : apos) : client :=
  Client (fun j => if Nat.eqb j i then Some x else cl_pos st j) (cl_text st).
Definition set_text (st : client) (t : nat) (l : list N) : client :=
  Client (cl_pos st) (fun j => if Nat.eqb j t then Some l else cl_text st j).
Definition set_of (q : c_set) (x : apos) (sq : square) : bool :=
  match q with
  | COccupied => of_color x Black sq || of_color x White sq
  | CVacant => negb (of_color x Black sq || of_color x White sq)
  | CPlayer c => of_color x c sq
  | CPieces p => of_color x (color_of p) sq && of_kind x (kind_of p) sq
  | CKinds k => of_kind x k sq
  end.
(** [None]: a position is used that has not been initialised *)
Definition client_step (st : client) (o : c_op) : option (client * c_result) :=
  match o with
  | CStartpos i => Some (set_pos st i a_opening, CNothing)
  | CMove i mv => match cl_pos st i with
                  | Some x => let (x', b) := a_try x (unpack mv) in Some (set_pos st i x', CBool b)
                  | None => None
                  end
  | CAssign i j => match cl_pos st j with Some x => Some (set_pos st i x, CNothing) | None => None end
  | CPieceAt i sq => option_map (fun x => (st, CPiece (OptionPiece (piece_byte (a_board x sq))))) (cl_pos st i)
  | CPly i => option_map (fun x => (st, CNumber (a_ply x))) (cl_pos st i)
  | CSideToMove i => option_map (fun x => (st, CColor (a_side x))) (cl_pos st i)
  | CHand i c => option_map (fun x => (st, CHandOf (Hand (map (a_hand x c) hand_kinds ++ [0])))) (cl_pos st i)
  | CLastMove i => option_map (fun x => (st, CLast (OptionCompactMove (move_number (a_last x))))) (cl_pos st i)
  | CBits i q => option_map (fun x => (st, CSquares (board_words (set_of q x)))) (cl_pos st i)
  | CToSfen i t => option_map (fun x => (set_text st t (sfen_text x), CNothing)) (cl_pos st i)
  end.
Fixpoint client_run (st : client) (os : list c_op) : option (client * list c_result) :=
  match os with
  | [] => Some (st, [])
  | o :: rest =>
      match client_step st o with
      | Some (st1, r) => match client_run st1 rest with Some (st2, rs) => Some (st2, r :: rs) | None => None end
      | None => None
      end
  end.

(** the arguments are as the types of the library require, and only the first [n] positions and [k] texts are used *)
Definition op_fine (n k : nat) (o : c_op) : Prop :=
  match o with
  | CStartpos i | CPly i | CSideToMove i | CHand i _ | CLastMove i => (i < n)%nat
  | CMove i mv => (i < n)%nat /\ valid_compact mv
  | CAssign i j => (i < n)%nat /\ (j < n)%nat
  | CPieceAt i sq => (i < n)%nat /\ valid_square sq
  | CBits i q => (i < n)%nat /\ match q with CPieces p => valid_piece p | _ => True end
  | CToSfen i t => (i < n)%nat /\ (t < k)%nat
  end.
(** the variables: aligned, accessible, and apart from each other; texts have the documented 139 bytes *)
Definition region (A : N) (env : c_env) (v : nat + nat) : N * N :=
  match v with inl i => (at_pos env i, position_size A) | inr t => (at_text env t, 139) end.
Definition variable (n k : nat) (v : nat + nat) : Prop := match v with inl i => (i < n)%nat | inr t => (t < k)%nat end.
Definition in_variable (A : N) (env : c_env) (v : nat + nat) (x : N) : Prop :=
  in_region (fst (region A env v)) (snd (region A env v)) x.
Definition placed (A : N) (env : c_env) (n k : nat) (m : mem) : Prop :=
  (forall i, (i < n)%nat -> aligned A (at_pos env i)) /\
  (forall v, variable n k v -> accessible m (fst (region A env v)) (snd (region A env v))) /\
  (forall v w x, variable n k v -> variable n k w -> v <> w -> in_variable A env v x -> in_variable A env w x -> False).
(** the C string at [p] *)
Definition string_at (m : mem) (p : N) (l : list N) : Prop :=
  (forall i b, nth_error l i = Some b -> m (p + N.of_nat i) = Some b /\ b <> 0) /\ m (p + N.of_nat (length l)) = Some 0.
