(** Concrete games and histories used in the examples beside the theorems. *)
From Verif Require Import Machine MColor MPieceKind MPiece MSquare MMove MHand MPosition SpecBase SpecPos.

Definition nm (f r f' r' : N) (promote : bool) : move := Normal (square_at f r) (square_at f' r') promote.
(** 7g7f, 3c3d, 8h2b+ (takes the bishop), 3a2b (takes the horse), a bishop dropped on 5e, two moves that make no
    sense (a drop of a piece not in hand, a capture of an own piece), White's bishop dropped on 6f. *)
Definition game1 : list move :=
  [nm 7 7 7 6 false; nm 3 3 3 4 false; nm 8 8 2 2 true; nm 3 1 2 2 false;
   Drop (piece_of Bishop Black) (square_at 5 5); Drop (piece_of Rook White) (square_at 5 6);
   nm 2 2 2 1 true; nm 2 2 1 1 false; Drop (piece_of Bishop White) (square_at 6 6)].
Definition flags1 : list bool := [true; true; true; true; true; false; false; false; true].
(** Editing: an extra king, hands, ply, side, a compact move, a capture. *)
Definition edits1 : list op :=
  [OpPieceSet (square_at 5 9) (Some (piece_of King Black)); OpPieceSet (square_at 4 9) (Some (piece_of King Black));
   OpHand Black (Hand [255; 0; 0; 0; 0; 0; 2; 0]); OpPly 0; OpPly 65535; OpPieceSet (square_at 4 9) None;
   OpPieceSet (square_at 5 8) (Some (piece_of ProPawn White));
   OpCompactMove (CompactMove (packed (nm 5 9 5 8 false))); OpSide Black;
   OpMove (Drop (piece_of Rook Black) (square_at 1 1))].
Definition flags2 : list bool := [true; true; true; false; true; true; true; true; true; true].
(** a computation returns, and its result satisfies the test *)
Definition returns {A} (m : res A) (f : A -> bool) : bool := match m with Ret x => f x | _ => false end.
(** Every piece that can promote is promoted, on every other file, and each player has taken two golds: the longest SFEN
    in play. *)
Definition spread : list move :=
  [nm 3 7 4 1 true; nm 3 3 4 9 true; nm 5 7 6 1 true; nm 5 3 6 9 true; nm 2 9 4 2 true; nm 2 1 6 2 true;
   nm 2 7 2 1 true; nm 2 3 2 4 true; nm 4 7 2 3 true; nm 4 3 4 4 true; nm 6 7 4 3 true; nm 6 3 6 4 true;
   nm 8 9 6 3 true; nm 8 1 8 4 true; nm 8 7 8 1 true; nm 8 3 2 5 true; nm 2 8 8 3 true; nm 2 2 4 5 true;
   nm 8 8 2 2 true; nm 8 2 6 5 true; nm 1 9 8 2 true; nm 1 1 8 5 true; nm 1 7 2 6 true; nm 1 3 4 6 true;
   nm 3 9 6 6 true; nm 3 1 8 6 true; nm 5 9 2 7 false; nm 5 1 4 7 false; nm 7 9 6 7 true; nm 7 1 8 7 true;
   nm 7 7 2 8 true; nm 7 3 4 8 true; nm 9 9 6 8 true; nm 9 1 8 8 true; nm 9 7 2 9 true; nm 9 3 8 9 true].
(** 81 promoted pawns, 255 of everything in both hands, the last ply: the longest SFEN of all. *)
Definition stuffed : list op :=
  map (fun sq => OpPieceSet sq (Some (piece_of ProPawn Black))) squares ++
  [OpHand Black (Hand [255; 255; 255; 255; 255; 255; 255; 0]); OpHand White (Hand [255; 255; 255; 255; 255; 255; 255; 0]); OpPly 65535].
(** the same position by two orders of moves *)
Definition order1 : list op := map OpMove [nm 7 7 7 6 false; nm 3 3 3 4 false; nm 2 7 2 6 false].
Definition order2 : list op := map OpMove [nm 2 7 2 6 false; nm 3 3 3 4 false; nm 7 7 7 6 false].
