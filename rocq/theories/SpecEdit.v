(** Specification of setting up positions by editing, of taking moves back, and of the texts that are the SFEN of some
    position. *)
From Verif Require Import Machine MColor MPieceKind MPiece MSquare MMove MHand MPosition SpecBase SpecPos SpecSfen.

(** The calls that are not moves *)
Definition is_edit (o : op) : bool :=
  match o with OpMove _ | OpCompactMove _ => false | _ => true end.

(** What an SFEN tells (board, side, hands, ply) that a [PartialPosition] can hold *)
Definition storable (r : sfen) : Prop :=
  f_ply r < 65536 /\ forall c k, In k hand_kinds -> f_hand r c k < 256.
(** the observers show it *)
Definition shows (P : profile) (s : partial_position) (r : sfen) : Prop :=
  side_to_move s = f_side r /\ ply s = f_ply r /\
  (forall sq, valid_square sq -> piece_at P s sq = Ret (option_map the_piece (f_board r sq))) /\
  (forall c k, In k hand_kinds -> pp_hand P s (piece_of k c) = Ret (Some (f_hand r c k))).
(** the only king of [c] is on [sq] *)
Definition only_king (b : square -> option (piece_kind * color)) (c : color) (sq : square) : Prop :=
  valid_square sq /\ forall t, valid_square t -> (b t = Some (King, c) <-> t = sq).
Definition no_king (b : square -> option (piece_kind * color)) (c : color) : Prop :=
  forall t, valid_square t -> b t <> Some (King, c).

(** Taking back the move [m] that was made in the position [a]: put the captured piece and the moved piece back, restore
    the mover's hand [h], the side and the ply. *)
Definition take_back (a : apos) (m : move) (h : hand) : list op :=
  match m with
  | Normal from to _ =>
      [OpPieceSet to (option_map the_piece (a_board a to)); OpPieceSet from (option_map the_piece (a_board a from))]
  | Drop _ to => [OpPieceSet to None]
  end ++ [OpHand (a_side a) h; OpSide (a_side a); OpPly (a_ply a)].
(** the position [a], but with [m] as its last move *)
Definition but_last (a : apos) (m : move) : apos :=
  APos (a_side a) (a_ply a) (a_board a) (a_hand a) (Some m) (a_king a).

(** ** The texts that can occur. The hands field of an SFEN is in order if its letters, read from left to right, go
    strictly forward in R B G S N L P r b g s n l p. *)
Fixpoint forward (order letters : list N) : bool :=
  match order, letters with
  | _, [] => true
  | [], _ :: _ => false
  | o :: order', c :: letters' => if c =? o then forward order' letters' else forward order' letters
  end.
Definition in_order (field : list N) : Prop :=
  field = bytes "-" \/ field <> [] /\ forward (bytes "RBGSNLPrbgsnlp") (filter (fun c => negb (is_digit c)) field) = true.
(** [t] has the four fields [b], [c], [h], [n] *)
Definition fields (t b c h n : list N) : Prop :=
  t = b ++ [32] ++ c ++ [32] ++ h ++ [32] ++ n /\
  ~ In 32 b /\ ~ In 32 c /\ ~ In 32 h /\ ~ In 32 n.
