(** The rules of shogi over abstract positions: how pieces move, promotion, drops, check, and the drop of a pawn that mates. Nothing here
    is in the library, which leaves legality to implementors of [LegalityChecker]; this says what they implement. *)
From Verif Require Export SpecLegal.

(** "and", which does not look at the second if the first is false *)
Notation "a 'and' b" := (if a then b else false) (at level 41, right associativity).

(** ** How the pieces move *)
(** directions as Black sees them: files to the left, ranks down; White sees the board turned round *)
Definition step (c : color) (s : square) (d : Z * Z) : option square :=
  let sign := match c with Black => 1 | White => -1 end%Z in
  let f := (Z.of_N (file_of s) + sign * fst d)%Z in
  let r := (Z.of_N (rank_of s) + sign * snd d)%Z in
  if ((1 <=? f) && (f <=? 9) && (1 <=? r) && (r <=? 9))%Z then Some (square_at (Z.to_N f) (Z.to_N r)) else None.
Definition ahead : Z * Z := (0, -1)%Z.
Definition orthogonal : list (Z * Z) := [(0, -1); (1, 0); (-1, 0); (0, 1)]%Z.
Definition diagonal : list (Z * Z) := [(1, -1); (-1, -1); (1, 1); (-1, 1)]%Z.
Definition like_gold : list (Z * Z) := [(0, -1); (1, -1); (-1, -1); (1, 0); (-1, 0); (0, 1)]%Z.
(** one step, over anything *)
Definition steps (k : piece_kind) : list (Z * Z) :=
  match k with
  | Pawn => [ahead]
  | Knight => [(1, -2); (-1, -2)]%Z
  | Silver => [(0, -1); (1, -1); (-1, -1); (1, 1); (-1, 1)]%Z
  | Gold | ProPawn | ProLance | ProKnight | ProSilver => like_gold
  | King => orthogonal ++ diagonal
  | ProBishop => orthogonal
  | ProRook => diagonal
  | Lance | Bishop | Rook => []
  end.
(** any number of steps, over empty squares *)
Definition slides (k : piece_kind) : list (Z * Z) :=
  match k with
  | Lance => [ahead]
  | Bishop | ProBishop => diagonal
  | Rook | ProRook => orthogonal
  | _ => []
  end.
Definition board := square -> option (piece_kind * color).
Fixpoint ray (b : board) (c : color) (d : Z * Z) (n : nat) (s : square) : list square :=
  match n with
  | O => []
  | S n => match step c s d with
           | Some t => t :: match b t with None => ray b c d n t | Some _ => [] end
           | None => []
           end
  end.
(** the squares a piece on [s] attacks *)
Definition reach (b : board) (c : color) (k : piece_kind) (s : square) : list square :=
  flat_map (fun d => match step c s d with Some t => [t] | None => [] end) (steps k) ++ flat_map (fun d => ray b c d 8 s) (slides k).
Definition attacks (b : board) (s t : square) : bool :=
  match b s with Some (k, c) => existsb (same_square t) (reach b c k s) | None => false end.
Definition is_king_of (b : board) (c : color) (s : square) : bool := match b s with Some (King, d) => same_color c d | _ => false end.
Definition owned_by (b : board) (c : color) (s : square) : bool := match b s with Some (_, d) => same_color c d | None => false end.
(** the king of [c] is attacked *)
Definition check (b : board) (c : color) : bool :=
  existsb (fun s => owned_by b (opponent c) s and existsb (fun t => is_king_of b c t and attacks b s t) squares) squares.

(** ** Moves *)
(** a piece that could never move again *)
Definition stuck (c : color) (k : piece_kind) (s : square) : bool :=
  match k with
  | Pawn | Lance => seen_by c (rank_of s) =? 1
  | Knight => seen_by c (rank_of s) <=? 2
  | _ => false
  end.
Definition in_camp (c : color) (s : square) : bool := seen_by c (rank_of s) <=? 3.
Definition can_promote (k : piece_kind) : bool := match promoted k with Some _ => true | None => false end.
(** a pawn of [c] that is not promoted on the file *)
Definition pawn_on_file (b : board) (c : color) (f : N) : bool :=
  existsb (fun s => (file_of s =? f) and match b s with Some (Pawn, d) => same_color c d | _ => false end) squares.
(** the piece moves as it does, without regard to check *)
Definition moves_right (a : apos) (m : move) : bool :=
  let c := a_side a in
  match m with
  | Normal from to promote =>
      match a_board a from with
      | Some (k, d) =>
          same_color c d and attacks (a_board a) from to and negb (owned_by (a_board a) c to) and
          (if promote then can_promote k and (in_camp c from || in_camp c to) else negb (stuck c k to))
      | None => false
      end
  | Drop p to =>
      same_color c (color_of p) and can_be_in_hand (kind_of p) and (0 <? a_hand a c (kind_of p)) and
      match a_board a to with None => true | Some _ => false end and
      negb (stuck c (kind_of p) to) and negb (same_kind (kind_of p) Pawn and pawn_on_file (a_board a) c (file_of to))
  end.
(** what the move does *)
Definition after (a : apos) (m : move) : apos :=
  let c := a_side a in
  match m with
  | Normal from to promote =>
      let k := match a_board a from with Some (k, _) => k | None => King end in
      let k' := if promote then match promoted k with Some l => l | None => k end else k in
      APos (opponent c) ((a_ply a + 1) mod 65536)
        (fun s => if same_square s to then Some (k', c) else if same_square s from then None else a_board a s)
        (fun d l => match a_board a to with
                    | Some (e, _) => if same_color d c && same_kind l (base_kind e) then a_hand a d l + 1 else a_hand a d l
                    | None => a_hand a d l
                    end)
        (Some m) (fun d => if same_color d c && same_kind k King then Some to else a_king a d)
  | Drop p to =>
      APos (opponent c) ((a_ply a + 1) mod 65536)
        (fun s => if same_square s to then Some (kind_of p, c) else a_board a s)
        (fun d l => if same_color d c && same_kind l (kind_of p) then a_hand a d l - 1 else a_hand a d l)
        (Some m) (a_king a)
  end.
(** ... and leaves the own king safe *)
Definition safe (a : apos) (m : move) : bool := moves_right a m and negb (check (a_board (after a m)) (a_side a)).
(** all moves that can be written down for a player *)
Definition candidates (c : color) : list move :=
  flat_map (fun s => flat_map (fun t => [Normal s t false; Normal s t true]) squares) squares ++
  flat_map (fun k => map (Drop (piece_of k c)) squares) hand_kinds.
Definition no_way_out (a : apos) : bool := negb (existsb (safe a) (candidates (a_side a))).
Definition mate (a : apos) : bool := check (a_board a) (a_side a) and no_way_out a.
(** a drop of a pawn must not mate *)
Definition pawn_drop_mate (a : apos) (m : move) : bool :=
  match m with Drop p _ => same_kind (kind_of p) Pawn and mate (after a m) | Normal _ _ _ => false end.
Definition legal (a : apos) (m : move) : bool := safe a m and negb (pawn_drop_mate a m).
Fixpoint legal_game (a : apos) (ms : list move) : bool :=
  match ms with [] => true | m :: rest => legal a m and legal_game (after a m) rest end.
Definition after_all (a : apos) (ms : list move) : apos := fold_left after ms a.

(** ** What holds in every position of a legal game *)
(** the player who has just moved is not in check *)
Definition left_safe (a : apos) : Prop := check (a_board a) (opponent (a_side a)) = false.
(** no piece is stuck *)
Definition none_stuck (a : apos) : Prop := forall s k c, valid_square s -> a_board a s = Some (k, c) -> stuck c k s = false.
(** no two unpromoted pawns of a player on a file *)
Definition no_two_pawns (a : apos) : Prop := forall s t c, valid_square s -> valid_square t ->
  a_board a s = Some (Pawn, c) -> a_board a t = Some (Pawn, c) -> file_of s = file_of t -> s = t.

(** ** An implementor of [LegalityChecker] *)
(** It reads the position by calls to the library ... *)
Definition look (P : profile) (s : partial_position) : res apos :=
  cells <- map_res (piece_at P s) squares;;
  hands <- map_res (fun c => h <- hand_of_a_player P s c;; map_res (hand_count P h) hand_kinds) [Black; White];;
  last <- last_move P s;;
  kings <- map_res (king_position P s) [Black; White];;
  let number c := match c with Black => 0 | White => 1 end%nat in
  Ret (APos (side_to_move s) (ply s)
    (fun t => option_map parts_of (nth (N.to_nat (sq_repr t - 1)) cells None))
    (fun c k => match find (fun x => same_kind k (fst x)) (combine hand_kinds (nth (number c) hands [])) with Some (_, Some n) => n | _ => 0 end)
    last (fun c => nth (number c) kings None)).
(** ... and decides by the rules. A position is in progress if the player on turn cannot take the king and has a legal move. *)
Definition status_of (a : apos) : position_status :=
  if check (a_board a) (opponent (a_side a)) then PSInvalid
  else if existsb (legal a) (candidates (a_side a)) then PSInProgress
  else match a_side a with Black => PSWhiteWins | White => PSBlackWins end.
Definition allowed (a : apos) (m : move) : bool := legal a m and negb (check (a_board a) (opponent (a_side a))).
(** what is wrong with a move that is not legal *)
Definition fault (a : apos) (m : move) : illegal_move_kind :=
  let c := a_side a in
  if negb (ps_eqb (status_of a) PSInProgress) then GameFinished
  else if moves_right a m then (if safe a m then DropPawnMate else IgnoredCheck)
  else match m with
       | Normal from to promote =>
           match a_board a from with
           | Some (k, d) => if same_color c d and attacks (a_board a) from to and negb (owned_by (a_board a) c to) and negb promote then NormalStuck else IncorrectMove
           | None => IncorrectMove
           end
       | Drop p to =>
           if same_color c (color_of p) and can_be_in_hand (kind_of p) and (0 <? a_hand a c (kind_of p)) and
              match a_board a to with None => true | Some _ => false end
           then (if stuck c (kind_of p) to then DropStuck else TwoPawns) else IncorrectMove
       end.
Definition rules_status (P : profile) (s : partial_position) : res position_status := a <- look P s;; Ret (status_of a).
(** the methods that answer with bitboards (legality.rs:101-121) *)
Fixpoint collect_squares (P : profile) (l : list square) : res bitboard :=
  match l with [] => Ret bb_empty | s :: rest => b <- collect_squares P rest;; bb_or_square P b s end.
Definition rules_from (P : profile) (s : partial_position) (from : square) : res bitboard :=
  a <- look P s;; collect_squares P (filter (fun to => allowed a (Normal from to false) || allowed a (Normal from to true)) squares).
Definition rules_to (P : profile) (s : partial_position) (to : square) (p : piece) : res bitboard :=
  a <- look P s;;
  collect_squares P (filter (fun from => match a_board a from with
                                         | Some x => piece_eqb (the_piece x) p and (allowed a (Normal from to false) || allowed a (Normal from to true))
                                         | None => false
                                         end) squares).
Definition rules_drop (P : profile) (s : partial_position) (p : piece) : res bitboard :=
  a <- look P s;; collect_squares P (filter (fun to => allowed a (Drop p to)) squares).
Definition rules_checker (P : profile) : legality_checker := LegalityChecker
  (fun p => rules_status P (inner p))
  (rules_status P)
  (fun s m => a <- look P s;; Ret (if allowed a m then ROk else RErr (fault a m)))
  (fun s m => a <- look P s;; Ret (allowed a m))
  (fun s => a <- look P s;; Ret (filter (allowed a) (candidates (a_side a))))
  (rules_from P) (rules_to P) (rules_drop P).
