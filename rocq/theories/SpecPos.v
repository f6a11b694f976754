(** Specification of positions: a board as a function of the square, hands as functions of color and kind.
    The data types of moves, squares, pieces are those of the model; no function of the model is used to
    define the abstract game below, only (from [sees] on) to say what its observers return. *)
From Verif Require Import Machine MColor MPieceKind MPiece MSquare MMove MHand MBitboard MResolution MPosition
  SpecBase SpecBoard.

(** ** The abstract position *)
Record apos := APos {
  a_side : color;
  a_ply : N;
  a_board : square -> option (piece_kind * color);
  a_hand : color -> piece_kind -> N;
  a_last : option move;
  (* where a king of this color was put last *)
  a_king : color -> option square
}.

Definition same_square (s t : square) : bool := sq_repr s =? sq_repr t.
Definition same_color (c d : color) : bool :=
  match c, d with Black, Black => true | White, White => true | _, _ => false end.
Definition same_kind (k l : piece_kind) : bool := kind_number k =? kind_number l.
Definition the_piece (x : piece_kind * color) : piece := piece_of (fst x) (snd x).
Definition parts_of (p : piece) : piece_kind * color := (kind_of p, color_of p).
Definition promoted (k : piece_kind) : option piece_kind :=
  match k with
  | Pawn => Some ProPawn | Lance => Some ProLance | Knight => Some ProKnight | Silver => Some ProSilver
  | Bishop => Some ProBishop | Rook => Some ProRook | _ => None
  end.
Definition can_be_in_hand (k : piece_kind) : bool := existsb (same_kind k) hand_kinds.

(** Editing *)
Definition a_put (a : apos) (sq : square) (x : option (piece_kind * color)) : apos :=
  APos (a_side a) (a_ply a)
    (fun t => if same_square t sq then x else a_board a t)
    (a_hand a) (a_last a)
    (fun c => match x with
              | Some (King, d) => if same_color c d then Some sq else a_king a c
              | _ => a_king a c
              end).
Definition a_set_hand (a : apos) (c : color) (k : piece_kind) (n : N) : apos :=
  APos (a_side a) (a_ply a) (a_board a)
    (fun d l => if same_color d c && same_kind l k then n else a_hand a d l) (a_last a) (a_king a).
Definition a_set_hands (a : apos) (c : color) (f : piece_kind -> N) : apos :=
  APos (a_side a) (a_ply a) (a_board a)
    (fun d l => if same_color d c then f l else a_hand a d l) (a_last a) (a_king a).
Definition a_set_side (a : apos) (c : color) : apos :=
  APos c (a_ply a) (a_board a) (a_hand a) (a_last a) (a_king a).
Definition a_set_ply (a : apos) (n : N) : apos :=
  APos (a_side a) n (a_board a) (a_hand a) (a_last a) (a_king a).
(** the end of a move: the other player's turn *)
Definition a_pass (a : apos) (m : move) : apos :=
  APos (opponent (a_side a)) ((a_ply a + 1) mod 65536) (a_board a) (a_hand a) (Some m) (a_king a).

(** The moves that make sense (position.rs:702-707) *)
Definition makes_sense (a : apos) (m : move) : Prop :=
  match m with
  | Normal from to promote =>
      (exists k, a_board a from = Some (k, a_side a) /\ (promote = true -> exists l, promotes_to k l)) /\
      match a_board a to with
      | None => True
      | Some (k, c) => c = opponent (a_side a) /\ k <> King
      end
  | Drop p to =>
      color_of p = a_side a /\ In (kind_of p) hand_kinds /\ 0 < a_hand a (a_side a) (kind_of p) /\
      a_board a to = None
  end.

(** Executable version: the position after the move, [None] if it does not make sense *)
Definition a_move (a : apos) (m : move) : option apos :=
  match m with
  | Normal from to promote =>
      match a_board a from with
      | Some (k, c) =>
          if same_color c (a_side a) then
            match (if promote then promoted k else Some k) with
            | Some k' =>
                let moved b := a_pass (a_put (a_put b from None) to (Some (k', c))) m in
                match a_board a to with
                | None => Some (moved a)
                | Some (e, d) =>
                    if same_color d (opponent c) && can_be_in_hand (base_kind e)
                    then Some (moved (a_set_hand a c (base_kind e) ((a_hand a c (base_kind e) + 1) mod 256)))
                    else None
                end
            | None => None
            end
          else None
      | None => None
      end
  | Drop p to =>
      if same_color (color_of p) (a_side a) && can_be_in_hand (kind_of p) &&
         (0 <? a_hand a (a_side a) (kind_of p)) then
        match a_board a to with
        | None => Some (a_pass (a_put (a_set_hand a (a_side a) (kind_of p) (a_hand a (a_side a) (kind_of p) - 1))
                                      to (Some (parts_of p))) m)
        | Some _ => None
        end
      else None
  end.

(** ** Histories: the safe calls that change a [PartialPosition] *)
Inductive op :=
| OpPieceSet (sq : square) (x : option piece)
| OpMove (m : move)
| OpCompactMove (c : compact_move)
| OpSide (c : color)
| OpPly (n : N)
| OpHand (c : color) (h : hand).       (* [*hand_of_a_player_mut(c) = h] *)
Definition valid_op (o : op) : Prop :=
  match o with
  | OpPieceSet sq x => valid_square sq /\ match x with Some p => valid_piece p | None => True end
  | OpMove m => valid_move m
  | OpCompactMove c => valid_compact c
  | OpSide _ => True
  | OpPly n => is_u16 n
  | OpHand _ h => valid_hand h
  end.

(** a call on the model, with the flag it returns ([true] for calls that return nothing) *)
Definition run_op (P : profile) (s : partial_position) (o : op) : res (partial_position * bool) :=
  match o with
  | OpPieceSet sq x => s' <- piece_set P s sq x;; Ret (s', true)
  | OpMove m => '(s', r) <- make_move P m s;; Ret (s', is_some r)
  | OpCompactMove c => make_compact_move P s c
  | OpSide c => Ret (side_to_move_set s c, true)
  | OpPly n => Ret (ply_set s n)
  | OpHand c h => s' <- hand_of_a_player_store P s c h;; Ret (s', true)
  end.
Fixpoint run_ops (P : profile) (s : partial_position) (os : list op) : res (partial_position * list bool) :=
  match os with
  | [] => Ret (s, [])
  | o :: rest =>
      '(s1, b) <- run_op P s o;;
      '(s2, bs) <- run_ops P s1 rest;;
      Ret (s2, b :: bs)
  end.

(** the same call on the abstract position; [unpack] reads a compact move by its documented packing *)
Definition unpack (c : compact_move) : move :=
  let v := cm_repr c in
  if N.testbit v 7 then Drop (Piece (v / 256)) (Square (v mod 128))
  else Normal (Square (v / 256 mod 128)) (Square (v mod 128)) (32768 <=? v).
Definition a_try (a : apos) (m : move) : apos * bool :=
  match a_move a m with Some a' => (a', true) | None => (a, false) end.
Definition a_op (a : apos) (o : op) : apos * bool :=
  match o with
  | OpPieceSet sq x => (a_put a sq (option_map parts_of x), true)
  | OpMove m => a_try a m
  | OpCompactMove c => a_try a (unpack c)
  | OpSide c => (a_set_side a c, true)
  | OpPly n => if n =? 0 then (a, false) else (a_set_ply a n, true)
  | OpHand c h => (a_set_hands a c (in_hand h), true)
  end.
Fixpoint a_ops (a : apos) (os : list op) : apos * list bool :=
  match os with
  | [] => (a, [])
  | o :: rest => let (a1, b) := a_op a o in let (a2, bs) := a_ops a1 rest in (a2, b :: bs)
  end.

(** The two initial positions *)
Definition a_empty : apos := APos Black 1 (fun _ => None) (fun _ _ => 0) None (fun _ => None).
Definition back_rank (file : N) : piece_kind :=
  match file with
  | 1 | 9 => Lance | 2 | 8 => Knight | 3 | 7 => Silver | 4 | 6 => Gold | _ => King
  end.
Definition opening_board (f r : N) : option (piece_kind * color) :=
  match r with
  | 1 => Some (back_rank f, White)
  | 2 => match f with 2 => Some (Bishop, White) | 8 => Some (Rook, White) | _ => None end
  | 3 => Some (Pawn, White)
  | 7 => Some (Pawn, Black)
  | 8 => match f with 2 => Some (Rook, Black) | 8 => Some (Bishop, Black) | _ => None end
  | 9 => Some (back_rank f, Black)
  | _ => None
  end.
Definition a_opening : apos :=
  APos Black 1 (fun s => opening_board (file_of s) (rank_of s)) (fun _ _ => 0) None
    (fun c => Some (match c with Black => square_at 5 9 | White => square_at 5 1 end)).

(** ** What the observers of the API say *)
Definition sees (P : profile) (s : partial_position) (a : apos) : Prop :=
  side_to_move s = a_side a /\
  ply s = a_ply a /\
  (forall sq, valid_square sq -> piece_at P s sq = Ret (option_map the_piece (a_board a sq))) /\
  (forall c, exists h, hand_of_a_player P s c = Ret h /\
     forall k, hand_count P h k = Ret (if can_be_in_hand k then Some (a_hand a c k) else None)) /\
  last_move P s = Ret (a_last a) /\
  (forall c, king_position P s c = Ret (a_king a c)).

(** Reachable by safe calls; reached from the starting position by moves alone *)
Definition initial (P : profile) (s : partial_position) : Prop := s = pp_empty \/ pp_startpos P = Ret s.
Definition reachable (P : profile) (s : partial_position) : Prop :=
  exists s0 os bs, initial P s0 /\ Forall valid_op os /\ run_ops P s0 os = Ret (s, bs).
Definition played (P : profile) (s : partial_position) : Prop :=
  exists s0 ms bs, pp_startpos P = Ret s0 /\ Forall valid_move ms /\ run_ops P s0 (map OpMove ms) = Ret (s, bs).

(** ** The effect of an accepted move, square by square and hand entry by hand entry *)
Definition effect (a : apos) (m : move) (a' : apos) : Prop :=
  a_side a' = opponent (a_side a) /\ a_ply a' = (a_ply a + 1) mod 65536 /\ a_last a' = Some m /\
  match m with
  | Normal from to promote =>
      from <> to /\
      exists k k',
        a_board a from = Some (k, a_side a) /\ (if promote then promotes_to k k' else k' = k) /\
        a_board a' from = None /\
        a_board a' to = Some (k', a_side a) /\
        (forall sq, sq <> from -> sq <> to -> a_board a' sq = a_board a sq) /\
        (forall c j, a_hand a' c j =
           match a_board a to with
           | Some (e, _) => if same_color c (a_side a) && same_kind j (base_kind e)
                            then (a_hand a c j + 1) mod 256 else a_hand a c j
           | None => a_hand a c j
           end) /\
        (forall c, a_king a' c = if same_color c (a_side a) && same_kind k King then Some to else a_king a c)
  | Drop p to =>
      a_board a' to = Some (kind_of p, a_side a) /\
      (forall sq, sq <> to -> a_board a' sq = a_board a sq) /\
      (forall c j, a_hand a' c j =
         if same_color c (a_side a) && same_kind j (kind_of p) then a_hand a c j - 1 else a_hand a c j) /\
      (forall c, a_king a' c = a_king a c)
  end.

(** The moves of a list that were accepted, given the flags returned *)
Definition accepted_moves (ms : list move) (bs : list bool) : list move :=
  map fst (filter snd (combine ms bs)).

(** ** Counting pieces *)
Definition squares : list square := map (fun n => Square (N.of_nat n)) (seq 1 81).
Definition count_squares (a : apos) (f : piece_kind * color -> bool) : N :=
  N.of_nat (length (filter (fun sq => match a_board a sq with Some x => f x | None => false end) squares)).
(** pieces of the base kind [k] on the board, promoted or not, of either color *)
Definition on_board_count (a : apos) (k : piece_kind) : N :=
  count_squares a (fun x => same_kind (base_kind (fst x)) k).
Definition full_set (k : piece_kind) : N :=
  match k with
  | Pawn => 18 | Lance => 4 | Knight => 4 | Silver => 4 | Gold => 4 | Bishop => 2 | Rook => 2 | King => 2
  | _ => 0
  end.

(** ** Kings *)
(** [king_position] tells the truth *)
Definition kings_right (a : apos) : Prop :=
  forall c, (forall sq, a_king a c = Some sq -> valid_square sq) /\
    forall sq, valid_square sq -> (a_king a c = Some sq <-> a_board a sq = Some (King, c)).
(** an edit that neither touches a king nor adds a second one *)
Definition tidy (a : apos) (o : op) : Prop :=
  match o with
  | OpPieceSet sq x =>
      (forall c, a_board a sq <> Some (King, c)) /\
      match x with
      | Some p => kind_of p = King -> forall t, valid_square t -> a_board a t <> Some (King, color_of p)
      | None => True
      end
  | _ => True
  end.
Fixpoint tidy_history (a : apos) (os : list op) : Prop :=
  match os with
  | [] => True
  | o :: rest => tidy a o /\ tidy_history (fst (a_op a o)) rest
  end.

(** ** The position seen from the other side of the table *)
Definition mirror_square (s : square) : square := Square (82 - sq_repr s).
Definition mirror_piece (p : piece) : piece := piece_of (kind_of p) (opponent (color_of p)).
Definition mirror_move (m : move) : move :=
  match m with
  | Normal f t pr => Normal (mirror_square f) (mirror_square t) pr
  | Drop p t => Drop (mirror_piece p) (mirror_square t)
  end.
Definition mirror (a : apos) : apos :=
  APos (opponent (a_side a)) (a_ply a)
    (fun sq => option_map (fun x => (fst x, opponent (snd x))) (a_board a (mirror_square sq)))
    (fun c => a_hand a (opponent c))
    (option_map mirror_move (a_last a))
    (fun c => option_map mirror_square (a_king a (opponent c))).
Definition mirror_op (o : op) : op :=
  match o with
  | OpPieceSet sq x => OpPieceSet (mirror_square sq) (option_map mirror_piece x)
  | OpMove m => OpMove (mirror_move m)
  | OpCompactMove c => OpCompactMove (CompactMove (packed (mirror_move (unpack c))))
  | OpSide c => OpSide (opponent c)
  | OpPly n => OpPly n
  | OpHand c h => OpHand (opponent c) h
  end.

(** [b] is a valid bitboard containing exactly the squares satisfying [f] *)
Definition bb_is (P : profile) (b : bitboard) (f : square -> bool) : Prop :=
  valid_bb b /\ forall sq, valid_square sq -> bb_contains P b sq = Ret (f sq).

(** ** [Position]: how one is made, and the calls that play on it *)
Inductive created (P : profile) : position -> partial_position -> Prop :=
| created_arbitrary s : reachable P s -> created P (arbitrary_position s) s
| created_startpos p s : pos_startpos P = Ret p -> pp_startpos P = Ret s -> created P p s
| created_default p s : pos_default P = Ret p -> pp_startpos P = Ret s -> created P p s.
Inductive pos_call := PMove (m : move) | PCompact (c : compact_move).
Definition valid_call (x : pos_call) : Prop :=
  match x with PMove m => valid_move m | PCompact c => valid_compact c end.
Definition call_move (x : pos_call) : move := match x with PMove m => m | PCompact c => unpack c end.
Fixpoint pos_run (P : profile) (p : position) (xs : list pos_call) : res (position * list bool) :=
  match xs with
  | [] => Ret (p, [])
  | x :: rest =>
      '(p1, b) <- match x with
                  | PMove m => '(p', o) <- pos_make_move P p m;; Ret (p', is_some o)
                  | PCompact c => pos_make_compact_move P p c
                  end;;
      '(p2, bs) <- pos_run P p1 rest;;
      Ret (p2, b :: bs)
  end.

(** ** [Game]: the calls that change the resolution *)
Inductive game_call := GResolve (r : game_resolution) | GUnresolve.
Definition game_step {A} (g : game_of A) (x : game_call) : game_of A :=
  match x with GResolve r => game_resolve g r | GUnresolve => game_unresolve g end.
Definition game_run {A} (g : game_of A) (xs : list game_call) : game_of A := fold_left game_step xs g.
