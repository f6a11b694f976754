(** Model of /repo/shogi_core/src/position.rs *)
From Verif Require Export Machine MCommon MColor MPieceKind MPiece MSquare MHand MMove MBitboard
  MResolution MBuild.

(** position.rs:374-385 [struct PartialPosition] *)
Record partial_position := PartialPosition {
  pp_side : color;
  pp_ply : N;
  pp_hands : list hand;
  pp_board : list option_piece;
  pp_player_bb : list bitboard;
  pp_piece_bb : list bitboard;
  pp_last_move : option_compact_move;
  pp_king_square : list option_square
}.

(** Field assignments [self.field = v] *)
Definition with_side (s : partial_position) (v : color) : partial_position :=
  PartialPosition v (pp_ply s) (pp_hands s) (pp_board s) (pp_player_bb s) (pp_piece_bb s)
    (pp_last_move s) (pp_king_square s).
Definition with_ply (s : partial_position) (v : N) : partial_position :=
  PartialPosition (pp_side s) v (pp_hands s) (pp_board s) (pp_player_bb s) (pp_piece_bb s)
    (pp_last_move s) (pp_king_square s).
Definition with_hands (s : partial_position) (v : list hand) : partial_position :=
  PartialPosition (pp_side s) (pp_ply s) v (pp_board s) (pp_player_bb s) (pp_piece_bb s)
    (pp_last_move s) (pp_king_square s).
Definition with_board (s : partial_position) (v : list option_piece) : partial_position :=
  PartialPosition (pp_side s) (pp_ply s) (pp_hands s) v (pp_player_bb s) (pp_piece_bb s)
    (pp_last_move s) (pp_king_square s).
Definition with_player_bb (s : partial_position) (v : list bitboard) : partial_position :=
  PartialPosition (pp_side s) (pp_ply s) (pp_hands s) (pp_board s) v (pp_piece_bb s)
    (pp_last_move s) (pp_king_square s).
Definition with_piece_bb (s : partial_position) (v : list bitboard) : partial_position :=
  PartialPosition (pp_side s) (pp_ply s) (pp_hands s) (pp_board s) (pp_player_bb s) v
    (pp_last_move s) (pp_king_square s).
Definition with_last_move (s : partial_position) (v : option_compact_move) : partial_position :=
  PartialPosition (pp_side s) (pp_ply s) (pp_hands s) (pp_board s) (pp_player_bb s) (pp_piece_bb s)
    v (pp_king_square s).
Definition with_king_square (s : partial_position) (v : list option_square) : partial_position :=
  PartialPosition (pp_side s) (pp_ply s) (pp_hands s) (pp_board s) (pp_player_bb s) (pp_piece_bb s)
    (pp_last_move s) v.

(** position.rs:389-400 [PartialPosition::empty] *)
Definition pp_empty : partial_position :=
  PartialPosition Black 1 (repeat hand_default 2) (repeat (op_from None) 81)
    (repeat bb_empty 2) (repeat bb_empty (N.to_nat PIECE_KIND_NUM)) (ocm_from None)
    (repeat (os_from None) (N.to_nat COLOR_NUM)).

(** position.rs:402-414 [STARTPOS_BLACK_BB] *)
Definition STARTPOS_BLACK_BB (P : profile) : res bitboard :=
  result <- for_each (range 0 9) (fun i result =>
      f <- add_w P 8 (cast_w 8 i) 1;;
      file <- bb_from_file_unchecked P f (N.lor (N.shiftl 1 8) (N.shiftl 1 6));;
      Ret (bb_or result file)) bb_empty;;
  s2h <- square_const "SQ_2H";; b2h <- bb_single P s2h;;
  let result := bb_or result b2h in
  s8h <- square_const "SQ_8H";; b8h <- bb_single P s8h;;
  Ret (bb_or result b8h).

(** position.rs:416-428 [STARTPOS_WHITE_BB] *)
Definition STARTPOS_WHITE_BB (P : profile) : res bitboard :=
  result <- for_each (range 0 9) (fun i result =>
      f <- add_w P 8 (cast_w 8 i) 1;;
      file <- bb_from_file_unchecked P f (N.lor (N.shiftl 1 2) 1);;
      Ret (bb_or result file)) bb_empty;;
  s2b <- square_const "SQ_2B";; b2b <- bb_single P s2b;;
  let result := bb_or result b2b in
  s8b <- square_const "SQ_8B";; b8b <- bb_single P s8b;;
  Ret (bb_or result b8b).

(** position.rs:445-455 [order] *)
Definition startpos_order : list piece_kind :=
  [Lance; Knight; Silver; Gold; King; Gold; Silver; Knight; Lance].

(** position.rs:433-459: the board built by [startpos] *)
Definition startpos_board (P : profile) : res (list option_piece) :=
  bp <- piece_const P "B_P";; wp <- piece_const P "W_P";;
  board <- for_each (range 0 9) (fun i board =>
      n <- mul_w P 64 i 9;; j <- add_w P 64 6 n;;
      board <- arr_store board j (op_from (Some bp));;
      n <- mul_w P 64 i 9;; j <- add_w P 64 2 n;;
      arr_store board j (op_from (Some wp))) (repeat (op_from None) 81);;
  bb <- piece_const P "B_B";; board <- arr_store board 70 (op_from (Some bb));;
  wb <- piece_const P "W_B";; board <- arr_store board 10 (op_from (Some wb));;
  br <- piece_const P "B_R";; board <- arr_store board 16 (op_from (Some br));;
  wr <- piece_const P "W_R";; board <- arr_store board 64 (op_from (Some wr));;
  for_each (range 0 9) (fun i board =>
      k <- arr_index startpos_order i;; p <- piece_new P k Black;;
      n <- mul_w P 64 9 i;; j <- add_w P 64 8 n;;
      board <- arr_store board j (op_from (Some p));;
      k <- arr_index startpos_order i;; p <- piece_new P k White;;
      n <- mul_w P 64 9 i;;
      arr_store board n (op_from (Some p))) board.

(** position.rs:460-468: the per-kind bitboards built by [startpos] from the board *)
Definition startpos_piece_bb (P : profile) (board : list option_piece) : res (list bitboard) :=
  squares <- sq_all;;
  for_each squares (fun square piece_bb =>
      i <- sq_array_index P square;;
      o <- arr_get_unchecked board i;;
      match op_into o with
      | Some p =>
          k <- piece_piece_kind p;;
          ki <- pk_array_index P k;;
          old <- arr_index piece_bb ki;;
          new <- bb_or_square P old square;;
          arr_store piece_bb ki new
      | None => Ret piece_bb
      end) (repeat bb_empty (N.to_nat PIECE_KIND_NUM)).

(** position.rs:431-479 [PartialPosition::startpos]; also [Default] (859-863) and the C version
    (483-485) *)
Definition pp_startpos (P : profile) : res partial_position :=
  board <- startpos_board P;;
  piece_bb <- startpos_piece_bb P board;;
  black <- STARTPOS_BLACK_BB P;;
  white <- STARTPOS_WHITE_BB P;;
  s5i <- square_const "SQ_5I";;
  s5a <- square_const "SQ_5A";;
  Ret (PartialPosition Black 1 (repeat hand_default 2) board [black; white] piece_bb (ocm_from None)
         [os_from (Some s5i); os_from (Some s5a)]).

(** position.rs:499-501 [side_to_move] *)
Definition side_to_move (s : partial_position) : color := pp_side s.
(** position.rs:505-507 [side_to_move_set] *)
Definition side_to_move_set (s : partial_position) (c : color) : partial_position := with_side s c.

(** [(color as u8 - 1) as usize] (position.rs:514,524) *)
Definition hand_index (P : profile) (c : color) : res N := sub_w P 8 (color_as_u8 c) 1.

(** position.rs:512-515 [hand_of_a_player] *)
Definition hand_of_a_player (P : profile) (s : partial_position) (c : color) : res hand :=
  i <- hand_index P c;; arr_get_unchecked (pp_hands s) i.

(** position.rs:522-525: writing [h] through the reference [hand_of_a_player_mut(c)] returns *)
Definition hand_of_a_player_store (P : profile) (s : partial_position) (c : color) (h : hand)
  : res partial_position :=
  i <- hand_index P c;; hs <- arr_store_unchecked (pp_hands s) i h;; Ret (with_hands s hs).

(** position.rs:530-533 [hand] *)
Definition pp_hand (P : profile) (s : partial_position) (p : piece) : res (option N) :=
  c <- piece_color p;; h <- hand_of_a_player P s c;;
  k <- piece_piece_kind p;; hand_count P h k.

(** position.rs:538-540 [ply] *)
Definition ply (s : partial_position) : N := pp_ply s.
(** position.rs:545-551 [ply_set] *)
Definition ply_set (s : partial_position) (n : N) : partial_position * bool :=
  if n =? 0 then (s, false) else (with_ply s n, true).

(** position.rs:572-576 [PartialPosition_piece_at] *)
Definition PartialPosition_piece_at (P : profile) (s : partial_position) (sq : square) : res option_piece :=
  i <- sq_index P sq;; index <- sub_w P 8 i 1;;
  arr_get_unchecked (pp_board s) index.

(** position.rs:565-567 [piece_at] *)
Definition piece_at (P : profile) (s : partial_position) (sq : square) : res (option piece) :=
  o <- PartialPosition_piece_at P s sq;; Ret (op_into o).

(** position.rs:582-611 [piece_set] *)
Definition piece_set (P : profile) (s : partial_position) (sq : square) (p : option piece)
  : res partial_position :=
  i <- sq_index P sq;; index <- sub_w P 8 i 1;;
  old <- piece_at P s sq;;
  board <- arr_store_unchecked (pp_board s) index (op_from p);;
  let s := with_board s board in
  single <- bb_single P sq;;
  b0 <- arr_index (pp_player_bb s) 0;;
  bbs <- arr_store (pp_player_bb s) 0 (bb_andnot single b0);;
  let s := with_player_bb s bbs in
  b1 <- arr_index (pp_player_bb s) 1;;
  bbs <- arr_store (pp_player_bb s) 1 (bb_andnot single b1);;
  let s := with_player_bb s bbs in
  s <- match p with
       | Some q =>
           '(_, c) <- piece_to_parts q;;
           match c with
           | Black =>
               b <- arr_index (pp_player_bb s) 0;;
               bbs <- arr_store (pp_player_bb s) 0 (bb_or b single);;
               Ret (with_player_bb s bbs)
           | White =>
               b <- arr_index (pp_player_bb s) 1;;
               bbs <- arr_store (pp_player_bb s) 1 (bb_or b single);;
               Ret (with_player_bb s bbs)
           end
       | None => Ret s
       end;;
  s <- match old with
       | Some q =>
           k <- piece_piece_kind q;;
           ki <- pk_array_index P k;;
           b <- arr_index (pp_piece_bb s) ki;;
           bbs <- arr_store (pp_piece_bb s) ki (bb_andnot single b);;
           Ret (with_piece_bb s bbs)
       | None => Ret s
       end;;
  match p with
  | Some q =>
      k <- piece_piece_kind q;;
      ki <- pk_array_index P k;;
      b <- arr_index (pp_piece_bb s) ki;;
      bbs <- arr_store (pp_piece_bb s) ki (bb_or b single);;
      let s := with_piece_bb s bbs in
      bk <- piece_const P "B_K";;
      s <- (if piece_eqb q bk
            then (ks <- arr_store (pp_king_square s) 0 (os_from (Some sq));; Ret (with_king_square s ks))
            else Ret s);;
      wk <- piece_const P "W_K";;
      (if piece_eqb q wk
       then (ks <- arr_store (pp_king_square s) 1 (os_from (Some sq));; Ret (with_king_square s ks))
       else Ret s)
  | None => Ret s
  end.

(** position.rs:618-620 [occupied_bitboard] *)
Definition occupied_bitboard (s : partial_position) : res bitboard :=
  a <- arr_index (pp_player_bb s) 0;; b <- arr_index (pp_player_bb s) 1;; Ret (bb_or a b).
(** position.rs:625-627 [vacant_bitboard] *)
Definition vacant_bitboard (s : partial_position) : res bitboard :=
  o <- occupied_bitboard s;; Ret (bb_not o).
(** position.rs:632-634 [player_bitboard] *)
Definition player_bitboard (P : profile) (s : partial_position) (c : color) : res bitboard :=
  i <- color_array_index P c;; arr_index (pp_player_bb s) i.
(** position.rs:649-652 [piece_bitboard] *)
Definition piece_bitboard (P : profile) (s : partial_position) (p : piece) : res bitboard :=
  '(k, c) <- piece_to_parts p;;
  ki <- pk_array_index P k;; a <- arr_index (pp_piece_bb s) ki;;
  ci <- color_array_index P c;; b <- arr_index (pp_player_bb s) ci;;
  Ret (bb_and a b).
(** position.rs:665-667 [piece_kind_bitboard] *)
Definition piece_kind_bitboard (P : profile) (s : partial_position) (k : piece_kind) : res bitboard :=
  ki <- pk_array_index P k;; arr_index (pp_piece_bb s) ki.

(** position.rs:693-695 [PartialPosition_last_compact_move] *)
Definition PartialPosition_last_compact_move (s : partial_position) : option_compact_move := pp_last_move s.
(** position.rs:687-689 [last_compact_move] *)
Definition last_compact_move (s : partial_position) : option compact_move := ocm_into (pp_last_move s).
(** position.rs:676-678 [last_move] *)
Definition last_move (P : profile) (s : partial_position) : res (option move) :=
  match last_compact_move s with
  | Some cm => m <- move_of_cm P cm;; Ret (Some m)
  | None => Ret None
  end.

(** position.rs:698-700 [king_position] *)
Definition king_position (P : profile) (s : partial_position) (c : color) : res (option square) :=
  i <- color_array_index P c;; o <- arr_index (pp_king_square s) i;; Ret (os_into o).

(** ** [make_move]: a function taking [&mut self] and returning an [Option].

    [pm A] is a computation on the mutable [self] with early return: it gives the final value of
    [*self] together with the option returned. An early return keeps whatever had been written. *)
Definition pm (A : Type) : Type := partial_position -> res (partial_position * option A).
Definition pret {A} (a : A) : pm A := fun s => Ret (s, Some a).
(** [return None] *)
Definition pnone {A} : pm A := fun s => Ret (s, None).
Definition pbind {A B} (m : pm A) (f : A -> pm B) : pm B :=
  fun s => bind (m s) (fun r => match r with
                                | (s', Some a) => f a s'
                                | (s', None) => Ret (s', None)
                                end).
(** a computation that does not touch [self] *)
Definition plift {A} (m : res A) : pm A := fun s => a <- m;; Ret (s, Some a).
(** a computation that reads [self] *)
Definition pread {A} (f : partial_position -> res A) : pm A := fun s => a <- f s;; Ret (s, Some a).
(** a computation that updates [self] *)
Definition pupd (f : partial_position -> res partial_position) : pm unit :=
  fun s => s' <- f s;; Ret (s', Some tt).
(** the [?] operator on an [Option] *)
Definition ptry {A} (o : option A) : pm A := match o with Some a => pret a | None => pnone end.

Notation "x <~ e ; k" := (pbind e (fun x => k)) (at level 100, e at next level, right associativity).

(** position.rs:708-752 [PartialPosition::make_move] *)
Definition make_move (P : profile) (mv : move) : pm unit :=
  color <~ pread (fun s => Ret (pp_side s));
  _ <~ match mv with
       | Normal from to promote =>
           o <~ pread (fun s => piece_at P s from);
           piece <~ ptry o;
           pc <~ plift (piece_color piece);
           if negb (color_eqb pc color) then pnone else
           target_piece <~ (if promote then (o <~ plift (piece_promote P piece); ptry o)
                            else pret piece);
           e <~ pread (fun s => piece_at P s to);
           _ <~ match e with
                | Some enemy =>
                    pc <~ plift (piece_color piece);
                    ec <~ plift (piece_color enemy);
                    if color_eqb pc ec then pnone else
                    pc <~ plift (piece_color piece);
                    obtaining <~ plift (piece_piece_kind enemy);
                    let unpromoted := match pk_unpromote obtaining with
                                      | Some k => k
                                      | None => obtaining
                                      end in
                    h <~ pread (fun s => hand_of_a_player P s pc);
                    o <~ plift (hand_added P h unpromoted);
                    h' <~ ptry o;
                    pupd (fun s => hand_of_a_player_store P s pc h')
                | None => pret tt
                end;
           _ <~ pupd (fun s => piece_set P s from None);
           pupd (fun s => piece_set P s to (Some target_piece))
       | Drop piece to =>
           pc <~ plift (piece_color piece);
           if negb (color_eqb pc color) then pnone else
           u <~ plift (piece_unpromote P piece);
           if (match u with Some _ => true | None => false end) then pnone else
           o <~ pread (fun s => piece_at P s to);
           if (match o with Some _ => true | None => false end) then pnone else
           pc <~ plift (piece_color piece);
           k <~ plift (piece_piece_kind piece);
           h <~ pread (fun s => hand_of_a_player P s pc);
           o <~ plift (hand_removed P h k);
           h' <~ ptry o;
           _ <~ pupd (fun s => hand_of_a_player_store P s pc h');
           pupd (fun s => piece_set P s to (Some piece))
       end;
  cm <~ plift (cm_of_move P mv);
  _ <~ pupd (fun s => Ret (with_last_move s (ocm_from (Some cm))));
  _ <~ pupd (fun s => c <- color_flip (pp_side s);; Ret (with_side s c));
  _ <~ pupd (fun s => Ret (with_ply s (wrapping_add_w 16 (pp_ply s) 1)));
  pret tt.

(** [.is_some()] *)
Definition is_some {A} (o : option A) : bool := match o with Some _ => true | None => false end.

(** position.rs:762-765 [PartialPosition::make_compact_move] *)
Definition make_compact_move (P : profile) (s : partial_position) (cm : compact_move)
  : res (partial_position * bool) :=
  mv <- move_of_cm P cm;;
  '(s', o) <- make_move P mv s;;
  Ret (s', is_some o).

(** ** SFEN *)
Section Sfen.
Context {W : Type} (P : profile) (K : sink W).

(** position.rs:771-787: the inner loop with the mutable variable [vacant], and what follows it *)
Fixpoint sfen_row_loop (board : list option_piece) (i : N) (js : list N) (vacant : N) : writer W :=
  match js with
  | [] => if 0 <? vacant then write_u8 P K vacant ?; wok else wok
  | j :: rest =>
      wbind (a <- sub_w P 64 8 j;; b <- mul_w P 64 9 a;; idx <- add_w P 64 b i;;
             arr_get_unchecked board idx) (fun current =>
      match op_into current with
      | Some occupying =>
          (if 0 <? vacant then write_u8 P K vacant else wok) ?;
          piece_to_usi P K occupying ?;
          (* [vacant] is 0 here: it was either not positive or reset by line 778 *)
          sfen_row_loop board i rest (if 0 <? vacant then 0 else vacant)
      | None => wbind (add_w P 8 vacant 1) (fun v => sfen_row_loop board i rest v)
      end)
  end.

(** position.rs:769-792: the outer loop *)
Fixpoint sfen_rows (board : list option_piece) (is : list N) : writer W :=
  match is with
  | [] => wok
  | i :: rest =>
      sfen_row_loop board i (range 0 9) 0 ?;
      (if i <? 8 then write_ascii_byte K (byte "/") else wok) ?;
      sfen_rows board rest
  end.

(** position.rs:768-803 [to_sfen] *)
Definition to_sfen (s : partial_position) : writer W :=
  sfen_rows (pp_board s) (range 0 9) ?;
  write_ascii_byte K (byte " ") ?;
  color_to_usi K (pp_side s) ?;
  write_ascii_byte K (byte " ") ?;
  hands_to_usi P K (pp_hands s) ?;
  write_ascii_byte K (byte " ") ?;
  write_u16 P K (pp_ply s) ?;
  wok.
End Sfen.

(** [alloc::string::String] as a sink: appends, never fails *)
Definition string_sink : sink (list N) := Sink (fun w s => (w ++ s, true)).

(** position.rs:819-823 [to_sfen_owned] *)
Definition to_sfen_owned (P : profile) (s : partial_position) : res (list N) :=
  '(w, _) <- to_sfen P string_sink s [];; Ret w.

(** to_usi.rs:14-20 [to_usi_owned], for any [to_usi] *)
Definition to_usi_owned (P : profile) (to_usi : writer (list N)) : res (list N) :=
  '(w, ok) <- to_usi [];; debug_assert P ok;;; Ret w.

(** position.rs:832-848 [struct Bridge] (a raw byte pointer) and its [Write] impl. The state is the pointer
    and the chronological list of the raw writes [(address, byte)] done so far. Addresses are unbounded
    integers: the caller's obligation that [ptr..] is valid memory is not modelled; the theorems
    say which addresses are written. *)
Record bridge := Bridge { br_ptr : N; br_log : list (N * N) }.
Definition bridge_sink : sink bridge :=
  Sink (fun w s =>
    (Bridge (br_ptr w + N.of_nat (length s))
            (br_log w ++ map (fun ib => (br_ptr w + N.of_nat (fst ib), snd ib))
                             (combine (seq 0 (length s)) s)), true)).

(** position.rs:831-853 [to_sfen_c]: the list of raw writes *)
Definition to_sfen_c (P : profile) (s : partial_position) (ptr : N) : res (list (N * N)) :=
  '(w, _) <- to_sfen P bridge_sink s (Bridge ptr []);;
  '(w, _) <- write_ascii_byte bridge_sink 0 w;;
  Ret (br_log w).

(** derived [PartialEq] of arrays and vectors *)
Fixpoint list_eqb {A} (eqb : A -> A -> bool) (a b : list A) : bool :=
  match a, b with
  | [], [] => true
  | x :: a', y :: b' => eqb x y && list_eqb eqb a' b'
  | _, _ => false
  end.

(** derived [PartialEq] of [PartialPosition] (position.rs:374) *)
Definition pp_eqb (a b : partial_position) : bool :=
  color_eqb (pp_side a) (pp_side b) && (pp_ply a =? pp_ply b) &&
  list_eqb hand_eqb (pp_hands a) (pp_hands b) && list_eqb op_eqb (pp_board a) (pp_board b) &&
  list_eqb bb_eqb (pp_player_bb a) (pp_player_bb b) && list_eqb bb_eqb (pp_piece_bb a) (pp_piece_bb b) &&
  ocm_eqb (pp_last_move a) (pp_last_move b) && list_eqb os_eqb (pp_king_square a) (pp_king_square b).

(** ** [Position]: position.rs:100-105 *)
Record position := Position {
  pos_initial : partial_position;
  pos_inner : partial_position;
  pos_moves : list move
}.

(** position.rs:112-114 [inner], 119-121 [initial_position], 298-300 [moves] *)
Definition inner (p : position) : partial_position := pos_inner p.
Definition initial_position (p : position) : partial_position := pos_initial p.
Definition moves (p : position) : list move := pos_moves p.

(** position.rs:144-150 [arbitrary_position] *)
Definition arbitrary_position (p : partial_position) : position := Position p p [].
(** position.rs:124-126 [startpos] (and the C version 130-132, up to boxing) *)
Definition pos_startpos (P : profile) : res position :=
  s <- pp_startpos P;; Ret (arbitrary_position s).
(** derived [Default] (position.rs:100): field by field *)
Definition pos_default (P : profile) : res position :=
  a <- pp_startpos P;; b <- pp_startpos P;; Ret (Position a b []).

(** position.rs:163-288, 304-306: the delegating observers *)
Definition pos_side_to_move (p : position) : color := side_to_move (pos_inner p).
Definition pos_hand_of_a_player (P : profile) (p : position) (c : color) : res hand :=
  hand_of_a_player P (pos_inner p) c.
Definition pos_hand (P : profile) (p : position) (x : piece) : res (option N) := pp_hand P (pos_inner p) x.
Definition pos_ply (p : position) : N := ply (pos_inner p).
Definition pos_piece_at (P : profile) (p : position) (sq : square) : res (option piece) :=
  piece_at P (pos_inner p) sq.
Definition pos_occupied_bitboard (p : position) : res bitboard := occupied_bitboard (pos_inner p).
Definition pos_vacant_bitboard (p : position) : res bitboard := vacant_bitboard (pos_inner p).
Definition pos_player_bitboard (P : profile) (p : position) (c : color) : res bitboard :=
  player_bitboard P (pos_inner p) c.
Definition pos_piece_bitboard (P : profile) (p : position) (x : piece) : res bitboard :=
  piece_bitboard P (pos_inner p) x.
Definition pos_last_move (P : profile) (p : position) : res (option move) := last_move P (pos_inner p).
Definition pos_last_compact_move (p : position) : option compact_move := last_compact_move (pos_inner p).
(** position.rs:348-350, 358-360 *)
Definition pos_to_sfen_owned (P : profile) (p : position) : res (list N) := to_sfen_owned P (pos_inner p).
Definition pos_to_sfen_c (P : profile) (p : position) (ptr : N) : res (list (N * N)) :=
  to_sfen_c P (pos_inner p) ptr.

(** position.rs:227-229 [Position::piece_set] (deprecated) *)
Definition pos_piece_set (P : profile) (p : position) (sq : square) (x : option piece) : res position :=
  s <- piece_set P (pos_inner p) sq x;; Ret (Position (pos_initial p) s (pos_moves p)).
(** position.rs:181-183 [Position::hand_of_a_player_mut] (deprecated): store through the reference *)
Definition pos_hand_store (P : profile) (p : position) (c : color) (h : hand) : res position :=
  s <- hand_of_a_player_store P (pos_inner p) c h;; Ret (Position (pos_initial p) s (pos_moves p)).

(** position.rs:315-319 [Position::make_move] *)
Definition pos_make_move (P : profile) (p : position) (mv : move) : res (position * option unit) :=
  '(s, o) <- make_move P mv (pos_inner p);;
  match o with
  | None => Ret (Position (pos_initial p) s (pos_moves p), None)
  | Some _ => Ret (Position (pos_initial p) s (pos_moves p ++ [mv]), Some tt)
  end.

(** position.rs:329-332 [Position::make_compact_move] *)
Definition pos_make_compact_move (P : profile) (p : position) (cm : compact_move)
  : res (position * bool) :=
  mv <- move_of_cm P cm;;
  '(p', o) <- pos_make_move P p mv;;
  Ret (p', is_some o).

(** derived [PartialEq] (position.rs:100) *)
Definition pos_eqb (a b : position) : bool :=
  pp_eqb (pos_initial a) (pos_initial b) && pp_eqb (pos_inner a) (pos_inner b) &&
  list_eqb move_eqb (pos_moves a) (pos_moves b).

(** ** [Game] (position.rs:13-17) and [PartialGame] (position.rs:57-61): the same code over
    [Position] and [PartialPosition] *)
Record game_of (A : Type) := GameOf { g_inner : A; g_resolution : option_game_resolution }.
Arguments GameOf {A} _ _.
Arguments g_inner {A} _.
Arguments g_resolution {A} _.
Definition game : Type := game_of position.
Definition partial_game : Type := game_of partial_position.

(** derived [Default] (position.rs:13,57) *)
Definition game_default (P : profile) : res game := p <- pos_default P;; Ret (GameOf p ogr_default).
Definition partial_game_default (P : profile) : res partial_game :=
  p <- pp_startpos P;; Ret (GameOf p ogr_default).

(** position.rs:24-26, 67-69 [position] *)
Definition game_position {A} (g : game_of A) : A := g_inner g.
(** position.rs:30-32, 73-75 [resolve] *)
Definition game_resolve {A} (g : game_of A) (r : game_resolution) : game_of A :=
  GameOf (g_inner g) (ogr_from (Some r)).
(** position.rs:36-38, 79-81 [unresolve] *)
Definition game_unresolve {A} (g : game_of A) : game_of A := GameOf (g_inner g) (ogr_from None).
(** position.rs:41-43, 84-86 [resolution] *)
Definition game_resolution_of {A} (g : game_of A) : res (option game_resolution) := ogr_into (g_resolution g).
(** position.rs:46-48, 89-91: C interface *)
Definition Game_resolution {A} (g : game_of A) : option_game_resolution := g_resolution g.

(** derived [PartialEq] *)
Definition game_eqb {A} (eqb : A -> A -> bool) (a b : game_of A) : bool :=
  eqb (g_inner a) (g_inner b) && ogr_eqb (g_resolution a) (g_resolution b).
