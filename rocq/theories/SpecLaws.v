(** Specification vocabulary for algebraic laws of positions: relabelled squares, independent calls. *)
From Verif Require Import Machine MColor MPieceKind MPiece MSquare MMove MHand MBitboard MPosition
  SpecBase SpecBoard SpecPos.

(** ** Relabelling the 81 squares *)
(** [f] permutes the squares and [g] is its inverse *)
Definition permutes (f g : square -> square) : Prop :=
  forall s, valid_square s -> valid_square (f s) /\ valid_square (g s) /\ g (f s) = s /\ f (g s) = s.
Definition relabel_move (f : square -> square) (m : move) : move :=
  match m with
  | Normal from to promote => Normal (f from) (f to) promote
  | Drop p to => Drop p (f to)
  end.
(** the piece that stood on [s] stands on [f s] *)
Definition relabel (f g : square -> square) (a : apos) : apos :=
  APos (a_side a) (a_ply a) (fun s => a_board a (g s)) (a_hand a)
    (option_map (relabel_move f) (a_last a)) (fun c => option_map f (a_king a c)).
Definition relabel_op (f : square -> square) (o : op) : op :=
  match o with
  | OpPieceSet sq x => OpPieceSet (f sq) x
  | OpMove m => OpMove (relabel_move f m)
  | OpCompactMove c => OpCompactMove (CompactMove (packed (relabel_move f (unpack c))))
  | OpSide c => OpSide c
  | OpPly n => OpPly n
  | OpHand c h => OpHand c h
  end.
(** The left-right reflection, an example of a permutation *)
Definition left_right (s : square) : square := square_at (10 - file_of s) (rank_of s).

(** ** Calls which do not interfere *)
Definition king_put (x : option piece) : option color :=
  match x with
  | Some p => if same_kind (kind_of p) King then Some (color_of p) else None
  | None => None
  end.
(** two edits which touch different parts of the position. Kings of one color interfere on any squares because
    [king_position] is about the last one put. *)
Definition independent (o1 o2 : op) : Prop :=
  match o1, o2 with
  | OpPieceSet s x, OpPieceSet t y =>
      s <> t /\ (king_put x = None \/ king_put y = None \/ king_put x <> king_put y)
  | OpHand c _, OpHand d _ => c <> d
  | OpSide _, OpSide _ => False
  | OpPly _, OpPly _ => False
  | OpMove _, _ | OpCompactMove _, _ | _, OpMove _ | _, OpCompactMove _ => False
  | _, _ => True
  end.
(** the squares a move touches *)
Definition touched (m : move) : list square :=
  match m with Normal from to _ => [from; to] | Drop _ to => [to] end.
(** the color of the king a move moves *)
Definition king_moved (a : apos) (m : move) : option color :=
  match m with
  | Normal from _ _ => match a_board a from with Some (King, c) => Some c | _ => None end
  | Drop _ _ => None
  end.
(** an edit which a move neither sees nor overwrites *)
Definition unseen (a : apos) (m : move) (o : op) : Prop :=
  match o with
  | OpPieceSet sq x => ~ In sq (touched m) /\ (king_put x = None \/ king_put x <> king_moved a m)
  | OpHand c _ => c <> a_side a
  | _ => False
  end.

(** an edit which makes an earlier one pointless *)
Definition overwrites (o2 o1 : op) : Prop :=
  match o1, o2 with
  | OpPieceSet s x, OpPieceSet t y => s = t /\ (king_put x = None \/ king_put x = king_put y)
  | OpHand c _, OpHand d _ => c = d
  | OpSide _, OpSide _ => True
  | OpPly _, OpPly n => n <> 0
  | _, _ => False
  end.

(** ** Counting *)
Definition sum (l : list N) : N := fold_right N.add 0 l.
Definition all_kinds : list piece_kind :=
  [Pawn; Lance; Knight; Silver; Gold; Bishop; Rook; King; ProPawn; ProLance; ProKnight; ProSilver; ProBishop; ProRook].
(** the number of members of the bitboard which [f] returns *)
Definition counts (P : profile) (f : res bitboard) (n : N) : Prop := (b <- f;; bb_count P b) = Ret n.
