(** Model of the tests of the crate itself: the [#[test]] functions of /repo/shogi_core/src and the examples in its documentation. A test
    passes if it returns. *)
From Coq Require Import DecimalString.
From Verif Require Export MCAbi MPosition.

(** [assert!], [assert_eq!] and [unwrap] *)
Definition assert (b : bool) : res unit := if b then Ret tt else Panic.
Definition unwrap {A} (o : option A) : res A := match o with Some a => Ret a | None => Panic end.
(** [PartialEq] of [Option] *)
Definition opt_eqb {A} (eqb : A -> A -> bool) (a b : option A) : bool :=
  match a, b with Some x, Some y => eqb x y | None, None => true | _, _ => false end.
(** [for x in l { body }] without variables *)
Definition for_all {A} (l : list A) (body : A -> res unit) : res unit := for_each l (fun x _ => body x) tt.
(** [for i in lo..=hi] *)
Definition upto (lo hi : N) : list N := range lo (hi + 1).
Definition bytes_eqb : list N -> list N -> bool := list_eqb N.eqb.
(** [format!("{}", value)] of an unsigned number *)
Definition format_number (n : N) : list N := bytes (NilZero.string_of_uint (N.to_uint n)).
(** [sink.write_char(c)] and [write_str(s)] on a [String] *)
Definition write_text (s : string) (w : list N) : list N := w ++ bytes s.
(** [to_usi(&mut string).unwrap()] on a new string *)
Definition usi_text (f : writer (list N)) : res (list N) := '(w, ok) <- f [];; assert ok;;; Ret w.
Definition sqc := square_const.

(** ** color.rs *)
(** color.rs:85-90 *)
Definition color_flip_works (P : profile) : res unit :=
  let colors := color_all in
  c0 <- arr_index colors 0;; c1 <- arr_index colors 1;;
  f0 <- color_flip c0;; assert (color_eqb f0 c1);;;
  f1 <- color_flip c1;; assert (color_eqb f1 c0).
(** color.rs:92-97 *)
Definition color_array_index_works (P : profile) : res unit :=
  for_all (range 0 2) (fun i => c <- arr_index color_all i;; j <- color_array_index P c;; assert (j =? i)).

(** ** game_resolution.rs *)
(** [core::mem::size_of] *)
Definition size_of (A : N) (t : string) : res N := l <- unwrap (rust_lay 9 A (RNamed t));; Ret (lay_size l).
(** game_resolution.rs:90-93 *)
Definition game_resolution_is_one_byte (P : profile) : res unit := n <- size_of 8 "GameResolution";; assert (n =? 1).
(** game_resolution.rs:95-99 *)
Definition option_game_resolution_default_is_compatible (P : profile) : res unit := assert (ogr_eqb ogr_default (ogr_from None)).

(** ** illegal_move_kind.rs *)
(** illegal_move_kind.rs:136-139 *)
Definition illegal_move_kind_is_one_byte (P : profile) : res unit := n <- size_of 8 "IllegalMoveKind";; assert (n =? 1).
(** illegal_move_kind.rs:141-145 *)
Definition option_illegal_move_kind_default_is_compatible (P : profile) : res unit := assert (rui_eqb rui_default (rui_from_option None)).
(** illegal_move_kind.rs:147-153 *)
Definition repr_is_correct (P : profile) : res unit :=
  for_all (upto 1 7) (fun repr => o <- imk_from_u8 repr;; value <- unwrap o;; assert (imk_as_u8 value =? repr)).
(** illegal_move_kind.rs:155-165 *)
Definition from_works (P : profile) : res unit :=
  for_all (upto 1 7) (fun repr =>
    o <- imk_from_u8 repr;; value <- unwrap o;;
    r <- rui_into_result (rui_from_result (RErr value));;
    assert (match r with RErr v => imk_eqb v value | ROk => false end);;;
    assert (rui_repr (rui_from_result (RErr value)) =? repr)).

(** ** square.rs *)
(** square.rs:314-335 *)
Definition square_new_works (P : profile) : res unit :=
  for_all (range 0 256) (fun file => for_all (range 0 256) (fun rank =>
    result <- sq_new P file rank;;
    assert (Bool.eqb (is_some result) (in_range 1 9 file && in_range 1 9 rank));;;
    match result with
    | Some sq =>
        x <- sq_file P sq;; assert (x =? file);;;
        x <- sq_rank P sq;; assert (x =? rank);;;
        x <- sq_relative_file P sq Black;; assert (x =? file);;;
        x <- sq_relative_rank P sq Black;; assert (x =? rank);;;
        x <- sq_relative_file P sq White;; y <- sub_w P 8 10 file;; assert (x =? y);;;
        x <- sq_relative_rank P sq White;; y <- sub_w P 8 10 rank;; assert (x =? y)
    | None => Ret tt
    end)).
(** square.rs:337-347 *)
Definition square_new_relative_works (P : profile) : res unit :=
  for_all (upto 1 9) (fun file => for_all (upto 1 9) (fun rank =>
    o <- sq_new_relative P file rank Black;; sq <- unwrap o;;
    o <- sq_new P file rank;; x <- unwrap o;; assert (sq_eqb sq x);;;
    o <- sq_new_relative P file rank White;; sq <- unwrap o;;
    f <- sub_w P 8 10 file;; r <- sub_w P 8 10 rank;;
    o <- sq_new P f r;; x <- unwrap o;; assert (sq_eqb sq x))).
(** square.rs:349-357 *)
Definition square_flip_works (P : profile) : res unit :=
  for_all (upto 1 9) (fun file => for_all (upto 1 9) (fun rank =>
    o <- sq_new P file rank;; sq <- unwrap o;; a <- sq_flip P sq;;
    f <- sub_w P 8 10 file;; r <- sub_w P 8 10 rank;;
    o <- sq_new P f r;; b <- unwrap o;; assert (sq_eqb a b))).
(** square.rs:359-367 *)
Definition from_u8_reference (value : N) : res (option square) :=
  if in_range 1 81 value then (s <- sq_from_u8_unchecked value;; Ret (Some s)) else Ret None.
(** square.rs:369-374 *)
Definition square_from_u8_works (P : profile) : res unit :=
  for_all (upto 0 255) (fun value => r <- from_u8_reference value;; assert (opt_eqb sq_eqb (sq_from_u8 value) r)).
(** square.rs:376-385; [i32] does not overflow here *)
Definition shift_reference (P : profile) (this : square) (file_delta rank_delta : Z) : res (option square) :=
  f <- sq_file P this;; r <- sq_rank P this;;
  let file := (Z.of_N f + file_delta)%Z in
  let rank := (Z.of_N r + rank_delta)%Z in
  if ((file <=? 0) || (rank <=? 0) || (10 <=? file) || (10 <=? rank))%Z then Ret None
  else sq_new P (Z.to_N (file mod 256)) (Z.to_N (rank mod 256)).
(** [-128..127] *)
Definition deltas : list Z := map (fun k => (Z.of_N k - 128)%Z) (range 0 255).
(** square.rs:387-401 *)
Definition square_shift_works (P : profile) : res unit :=
  for_all (upto 1 9) (fun file => for_all (upto 1 9) (fun rank =>
    o <- sq_new P file rank;; sq <- unwrap o;;
    for_all deltas (fun file_delta => for_all deltas (fun rank_delta =>
      result <- sq_shift P sq file_delta rank_delta;;
      r <- shift_reference P sq file_delta rank_delta;;
      assert (opt_eqb sq_eqb result r))))).
(** square.rs:402-407 *)
Definition square_array_index_works (P : profile) : res unit :=
  all <- sq_all;;
  for_all (combine (seq 0 (List.length all)) all) (fun x => i <- sq_array_index P (snd x);; assert (i =? N.of_nat (fst x))).
(** square.rs:409-491: one assertion for each of the 81 constants *)
Definition square_to_usi_works (P : profile) : res unit :=
  for_all [("SQ_1A", "1a"); ("SQ_1B", "1b"); ("SQ_1C", "1c"); ("SQ_1D", "1d"); ("SQ_1E", "1e"); ("SQ_1F", "1f"); ("SQ_1G", "1g"); ("SQ_1H", "1h"); ("SQ_1I", "1i"); ("SQ_2A", "2a"); ("SQ_2B", "2b"); ("SQ_2C", "2c"); ("SQ_2D", "2d"); ("SQ_2E", "2e"); ("SQ_2F", "2f"); ("SQ_2G", "2g"); ("SQ_2H", "2h"); ("SQ_2I", "2i"); ("SQ_3A", "3a"); ("SQ_3B", "3b"); ("SQ_3C", "3c"); ("SQ_3D", "3d"); ("SQ_3E", "3e"); ("SQ_3F", "3f"); ("SQ_3G", "3g"); ("SQ_3H", "3h"); ("SQ_3I", "3i"); ("SQ_4A", "4a"); ("SQ_4B", "4b"); ("SQ_4C", "4c"); ("SQ_4D", "4d"); ("SQ_4E", "4e"); ("SQ_4F", "4f"); ("SQ_4G", "4g"); ("SQ_4H", "4h"); ("SQ_4I", "4i"); ("SQ_5A", "5a"); ("SQ_5B", "5b"); ("SQ_5C", "5c"); ("SQ_5D", "5d"); ("SQ_5E", "5e"); ("SQ_5F", "5f"); ("SQ_5G", "5g"); ("SQ_5H", "5h"); ("SQ_5I", "5i"); ("SQ_6A", "6a"); ("SQ_6B", "6b"); ("SQ_6C", "6c"); ("SQ_6D", "6d"); ("SQ_6E", "6e"); ("SQ_6F", "6f"); ("SQ_6G", "6g"); ("SQ_6H", "6h"); ("SQ_6I", "6i"); ("SQ_7A", "7a"); ("SQ_7B", "7b"); ("SQ_7C", "7c"); ("SQ_7D", "7d"); ("SQ_7E", "7e"); ("SQ_7F", "7f"); ("SQ_7G", "7g"); ("SQ_7H", "7h"); ("SQ_7I", "7i"); ("SQ_8A", "8a"); ("SQ_8B", "8b"); ("SQ_8C", "8c"); ("SQ_8D", "8d"); ("SQ_8E", "8e"); ("SQ_8F", "8f"); ("SQ_8G", "8g"); ("SQ_8H", "8h"); ("SQ_8I", "8i"); ("SQ_9A", "9a"); ("SQ_9B", "9b"); ("SQ_9C", "9c"); ("SQ_9D", "9d"); ("SQ_9E", "9e"); ("SQ_9F", "9f"); ("SQ_9G", "9g"); ("SQ_9H", "9h"); ("SQ_9I", "9i")]%string (fun x =>
    s <- sqc (fst x);; t <- to_usi_owned P (sq_to_usi P string_sink s);; assert (bytes_eqb t (bytes (snd x)))).

(** ** piece_kind.rs *)
(** piece_kind.rs:348-353 *)
Definition kind_from_u8_works (P : profile) : res unit :=
  for_all pk_all (fun k => o <- pk_from_u8 (pk_as_u8 k);; assert (opt_eqb pk_eqb o (Some k))).
(** piece_kind.rs:355-361 *)
Definition kind_array_index_works (P : profile) : res unit :=
  assert (N.of_nat (List.length pk_all) =? PIECE_KIND_NUM);;;
  for_all (range 0 PIECE_KIND_NUM) (fun i => k <- arr_index pk_all i;; j <- pk_array_index P k;; assert (j =? i)).
(** piece_kind.rs:364-381 *)
Definition kind_usi_reference (k : piece_kind) : list N -> list N :=
  match k with
  | Pawn => write_text "P" | Lance => write_text "L" | Knight => write_text "N" | Silver => write_text "S" | Gold => write_text "G"
  | Bishop => write_text "B" | Rook => write_text "R" | King => write_text "K"
  | ProPawn => write_text "+P" | ProLance => write_text "+L" | ProKnight => write_text "+N" | ProSilver => write_text "+S"
  | ProBishop => write_text "+B" | ProRook => write_text "+R"
  end.
(** piece_kind.rs:383-392 *)
Definition kind_to_usi_works (P : profile) : res unit :=
  for_all pk_all (fun k => actual <- usi_text (pk_to_usi P string_sink k);; assert (bytes_eqb actual (kind_usi_reference k []))).

(** ** piece.rs *)
(** piece.rs:233-245 *)
Definition piece_to_parts_works (P : profile) : res unit :=
  for_all pk_all (fun piece_kind => for_all color_all (fun color =>
    piece <- piece_new P piece_kind color;;
    '(piece_kind0, color0) <- piece_to_parts piece;;
    assert (pk_eqb piece_kind0 piece_kind);;; assert (color_eqb color0 color))).
(** piece.rs:248-280 *)
Definition piece_usi_reference (this : piece) : res (list N -> list N) :=
  kc <- piece_to_parts this;;
  Ret (match kc with
  | (Pawn, Black) => write_text "P" | (Pawn, White) => write_text "p"
  | (Lance, Black) => write_text "L" | (Lance, White) => write_text "l"
  | (Knight, Black) => write_text "N" | (Knight, White) => write_text "n"
  | (Silver, Black) => write_text "S" | (Silver, White) => write_text "s"
  | (Gold, Black) => write_text "G" | (Gold, White) => write_text "g"
  | (Bishop, Black) => write_text "B" | (Bishop, White) => write_text "b"
  | (Rook, Black) => write_text "R" | (Rook, White) => write_text "r"
  | (King, Black) => write_text "K" | (King, White) => write_text "k"
  | (ProPawn, Black) => write_text "+P" | (ProPawn, White) => write_text "+p"
  | (ProLance, Black) => write_text "+L" | (ProLance, White) => write_text "+l"
  | (ProKnight, Black) => write_text "+N" | (ProKnight, White) => write_text "+n"
  | (ProSilver, Black) => write_text "+S" | (ProSilver, White) => write_text "+s"
  | (ProBishop, Black) => write_text "+B" | (ProBishop, White) => write_text "+b"
  | (ProRook, Black) => write_text "+R" | (ProRook, White) => write_text "+r"
  end).
(** piece.rs:282-291 *)
Definition piece_to_usi_works (P : profile) : res unit :=
  all <- piece_all P;;
  for_all all (fun piece =>
    actual <- usi_text (piece_to_usi P string_sink piece);; expected <- piece_usi_reference piece;;
    assert (bytes_eqb actual (expected []))).

(** ** common.rs *)
(** common.rs:63-70 *)
Definition write_u8_test (P : profile) : res unit :=
  for_all (upto 0 255) (fun value => s <- usi_text (write_u8 P string_sink value);; assert (bytes_eqb s (format_number value))).
(** common.rs:72-79 *)
Definition write_u16_test (P : profile) : res unit :=
  for_all (upto 0 65535) (fun value => s <- usi_text (write_u16 P string_sink value);; assert (bytes_eqb s (format_number value))).

(** ** mv.rs *)
(** mv.rs:331-356 *)
Definition from_into_works (P : profile) : res unit :=
  for_all (upto 1 81) (fun from => from <- sq_from_u8_unchecked from;;
    for_all (upto 1 81) (fun to => to <- sq_from_u8_unchecked to;;
      for_all [false; true] (fun promote =>
        let mv := Normal from to promote in
        compact <- cm_of_move P mv;; mv2 <- move_of_cm P compact;; assert (move_eqb mv mv2))));;;
  all <- piece_all P;;
  for_all all (fun piece =>
    for_all (upto 1 81) (fun to => to <- sq_from_u8_unchecked to;;
      let mv := Drop piece to in
      compact <- cm_of_move P mv;; mv2 <- move_of_cm P compact;; assert (move_eqb mv mv2))).
(** mv.rs:358-375 *)
Definition normal_works (P : profile) : res unit :=
  all <- sq_all;;
  for_all all (fun from => for_all all (fun to => for_all [false; true] (fun promote =>
    cmv <- cm_normal P from to promote;;
    c <- cm_of_move P (Normal from to promote);; assert (cm_eqb c cmv);;;
    f <- cm_from P cmv;; assert (opt_eqb sq_eqb f (Some from));;;
    t <- cm_to cmv;; assert (sq_eqb t to);;;
    assert (Bool.eqb (cm_is_promoting cmv) promote);;;
    assert (negb (cm_is_drop cmv))))).
(** mv.rs:377-392 *)
Definition drop_works (P : profile) : res unit :=
  pieces <- piece_all P;; all <- sq_all;;
  for_all pieces (fun piece => for_all all (fun to =>
    cmv <- cm_drop P piece to;;
    c <- cm_of_move P (Drop piece to);; assert (cm_eqb c cmv);;;
    f <- cm_from P cmv;; assert (opt_eqb sq_eqb f None);;;
    t <- cm_to cmv;; assert (sq_eqb t to);;;
    assert (negb (cm_is_promoting cmv));;;
    assert (cm_is_drop cmv))).

(** ** bitboard.rs *)
(** bitboard.rs:608-620 *)
Definition from_strs (P : profile) (a : list (list N)) : res bitboard :=
  for_each (upto 1 9) (fun rank => for_each (upto 1 9) (fun file result =>
    row <- arr_index a (rank - 1);; x <- arr_index row (9 - file);;
    if x =? byte "*" then (o <- sq_new P file rank;; s <- unwrap o;; bb_or_square P result s)
    else (assert (x =? byte ".");;; Ret result))) bb_empty.
(** bitboard.rs:622-636 *)
Definition contains_works (P : profile) : res unit :=
  for_all (upto 1 9) (fun file => for_all (upto 1 9) (fun rank =>
    o <- sq_new P file rank;; sq <- unwrap o;;
    b <- bb_single P sq;; x <- bb_contains P b sq;; assert x;;;
    for_all (upto 1 9) (fun ofile => for_all (upto 1 9) (fun orank =>
      o <- sq_new P ofile orank;; osq <- unwrap o;;
      b <- bb_single P sq;; x <- bb_contains P b osq;; assert (Bool.eqb x (sq_eqb sq osq)))))).
(** bitboard.rs:638-646 *)
Definition bitboard_flip_works (P : profile) : res unit :=
  for_all (upto 1 9) (fun file => for_all (upto 1 9) (fun rank =>
    o <- sq_new P file rank;; sq <- unwrap o;;
    b <- bb_single P sq;; a <- bb_flip P b;;
    t <- sq_flip P sq;; c <- bb_single P t;; assert (bb_eqb a c))).
(** bitboard.rs:648-668 *)
Definition pop_works (P : profile) : res unit :=
  all <- sq_all;;
  for_all all (fun square =>
    bitboard <- bb_single P square;;
    '(bitboard, o) <- bb_pop P bitboard;;
    assert (opt_eqb sq_eqb o (Some square));;; assert (bb_is_empty bitboard));;;
  for_all all (fun sq1 => for_all all (fun sq2 =>
    if sq_eqb sq1 sq2 then Ret tt
    else
      a <- bb_single P sq1;; b <- bb_single P sq2;;
      let bitboard := bb_or a b in
      '(bitboard, o) <- bb_pop P bitboard;; result1 <- unwrap o;;
      '(bitboard, o) <- bb_pop P bitboard;; result2 <- unwrap o;;
      assert ((sq_eqb result1 sq1 && sq_eqb result2 sq2) || (sq_eqb result1 sq2 && sq_eqb result2 sq1));;;
      assert (bb_is_empty bitboard))).
(** bitboard.rs:694-710 *)
Definition from_file_works (P : profile) : res unit :=
  for_all (upto 1 9) (fun file => for_all (range 0 512) (fun pattern =>
    result <- bb_from_file_unchecked P file pattern;;
    inner <- for_each (upto 1 9) (fun rank inner =>
      o <- sq_new P file rank;; s <- unwrap o;; x <- bb_contains P result s;;
      if x then (v <- shl_w P 16 1 (rank - 1);; Ret (N.lor inner v)) else Ret inner) 0;;
    assert (pattern =? inner);;;
    n <- bb_count P result;; assert (n =? count_ones64 pattern);;;
    p <- bb_get_file_unchecked P result file;; assert (p =? pattern))).
Definition blank : list N := bytes ".........".
(** bitboard.rs:714-724, 769-779, 888-898 *)
Definition init_str : list (list N) := map bytes
  ["*.....***"; ".......**"; "....*..**"; "*...*...*"; "........."; "*.*.*...*"; "**......."; "***......"; "***....**"]%string.
(** bitboard.rs:712-735 *)
Definition shift_down_works (P : profile) : res unit :=
  init <- from_strs P init_str;;
  r <- bb_shift_down P init 0;; assert (bb_eqb r init);;;
  for_all (upto 0 9) (fun i =>
    let n := N.to_nat i in
    expected <- from_strs P (repeat blank n ++ firstn (9 - n) init_str);;
    result <- bb_shift_down P init i;; assert (bb_eqb result expected)).
(** bitboard.rs:767-790 *)
Definition shift_up_works (P : profile) : res unit :=
  init <- from_strs P init_str;;
  r <- bb_shift_up P init 0;; assert (bb_eqb r init);;;
  for_all (upto 0 9) (fun i =>
    let n := N.to_nat i in
    expected <- from_strs P (skipn n init_str ++ repeat blank n);;
    result <- bb_shift_up P init i;; assert (bb_eqb result expected)).
(** bitboard.rs:822-855 *)
Definition shift_left_works (P : profile) : res unit :=
  init <- from_strs P (map bytes
    ["*.....***"; ".......**"; "....*..**"; "*...*...*"; "........."; "*.*.*...*"; "**......."; "****....."; "***....**"]%string);;
  result <- bb_shift_left P init 3;;
  expected <- from_strs P (map bytes
    ["...***..."; "....**..."; ".*..**..."; ".*...*..."; "........."; ".*...*..."; "........."; "*........"; "....**..."]%string);;
  assert (bb_eqb result expected);;;
  r <- bb_shift_left P init 0;; assert (bb_eqb r init);;;
  for_all (upto 0 9) (fun i => result <- bb_shift_left P init i;; assert (bb_eqb result result)).
(** bitboard.rs:886-919 *)
Definition shift_right_works (P : profile) : res unit :=
  init <- from_strs P init_str;;
  result <- bb_shift_right P init 3;;
  expected <- from_strs P (map bytes
    ["...*....."; "........."; ".......*."; "...*...*."; "........."; "...*.*.*."; "...**...."; "...***..."; "...***..."]%string);;
  assert (bb_eqb result expected);;;
  r <- bb_shift_right P init 0;; assert (bb_eqb r init);;;
  for_all (upto 0 9) (fun i => result <- bb_shift_right P init i;; assert (bb_eqb result result)).

(** ** position.rs *)
Definition normal_const (from to : string) (promote : bool) : res move := f <- sqc from;; t <- sqc to;; Ret (Normal f t promote).
Definition drop_const (P : profile) (p to : string) : res move := p <- piece_const P p;; t <- sqc to;; Ret (Drop p t).
(** position.rs:869-908 *)
Definition startpos_works (P : profile) : res unit :=
  s <- pp_startpos P;;
  mv <- normal_const "SQ_7G" "SQ_7F" false;; '(s, result) <- make_move P mv s;;
  assert (opt_eqb (fun _ _ => true) result (Some tt));;;
  assert (color_eqb (side_to_move s) White);;;
  t <- to_sfen_owned P s;;
  assert (bytes_eqb t (bytes "lnsgkgsnl/1r5b1/ppppppppp/9/9/2P6/PP1PPPPPP/1B5R1/LNSGKGSNL w - 2"));;;
  mv <- normal_const "SQ_3C" "SQ_3D" false;; '(s, o) <- make_move P mv s;; unwrap o;;;
  mv <- normal_const "SQ_8H" "SQ_2B" true;; '(s, o) <- make_move P mv s;; unwrap o;;;
  mv <- normal_const "SQ_3A" "SQ_2B" false;; '(s, o) <- make_move P mv s;; unwrap o;;;
  p <- piece_const P "B_B";; n <- pp_hand P s p;; assert (opt_eqb N.eqb n (Some 1));;;
  p <- piece_const P "W_B";; n <- pp_hand P s p;; assert (opt_eqb N.eqb n (Some 1));;;
  t <- to_sfen_owned P s;;
  assert (bytes_eqb t (bytes "lnsgkg1nl/1r5s1/pppppp1pp/6p2/9/2P6/PP1PPPPPP/7R1/LNSGKGSNL b Bb 5")).
(** position.rs:909-917 *)
Definition to_sfen_works (P : profile) : res unit :=
  pos <- pp_startpos P;; s <- to_sfen_owned P pos;;
  assert (bytes_eqb s (bytes "lnsgkgsnl/1r5b1/ppppppppp/9/9/9/PPPPPPPPP/1B5R1/LNSGKGSNL b - 1")).

(** All of the 36 but lib.rs:105 [discriminant_elision_works], which is about the layout the compiler gives to [Option]s. *)
Definition unit_tests : list (profile -> res unit) := [
  color_flip_works; color_array_index_works; game_resolution_is_one_byte; option_game_resolution_default_is_compatible; square_new_works;
  square_new_relative_works; square_flip_works; square_from_u8_works; square_shift_works; square_array_index_works; square_to_usi_works;
  piece_to_parts_works; piece_to_usi_works; illegal_move_kind_is_one_byte; option_illegal_move_kind_default_is_compatible; repr_is_correct;
  from_works; startpos_works; to_sfen_works; kind_from_u8_works; kind_array_index_works; kind_to_usi_works; write_u8_test; write_u16_test;
  from_into_works; normal_works; drop_works; contains_works; bitboard_flip_works; pop_works; from_file_works; shift_down_works; shift_up_works;
  shift_left_works; shift_right_works].

(** ** Examples in the documentation *)
(** bitboard.rs:20-25 *)
Definition doc_bitboard_empty (P : profile) : res unit :=
  n <- bb_count P bb_empty;; assert (n =? 0).
(** bitboard.rs:40-45 *)
Definition doc_bitboard_single (P : profile) : res unit :=
  sq11 <- (s <- sqc "SQ_1A";; bb_single P s);;
  n <- bb_count P sq11;; assert (n =? 1).
(** bitboard.rs:71-77 *)
Definition doc_bitboard_count (P : profile) : res unit :=
  sq11 <- (s <- sqc "SQ_1A";; bb_single P s);;
  sq55 <- (s <- sqc "SQ_5E";; bb_single P s);;
  n <- bb_count P (bb_or sq11 sq55);; assert (n =? 2).
(** bitboard.rs:88-95 *)
Definition doc_bitboard_is_empty (P : profile) : res unit :=
  sq11 <- (s <- sqc "SQ_1A";; bb_single P s);;
  sq55 <- (s <- sqc "SQ_5E";; bb_single P s);;
  assert (negb (bb_is_empty (bb_or sq11 sq55)));;;
  assert (bb_is_empty bb_empty).
(** bitboard.rs:104-110 *)
Definition doc_bitboard_contains (P : profile) : res unit :=
  sq11 <- (s <- sqc "SQ_1A";; bb_single P s);;
  s <- sqc "SQ_1A";; x <- bb_contains P sq11 s;; assert x;;;
  s <- sqc "SQ_9I";; x <- bb_contains P sq11 s;; assert (negb x).
(** bitboard.rs:124-130 *)
Definition doc_bitboard_flip (P : profile) : res unit :=
  sq11 <- (s <- sqc "SQ_1A";; bb_single P s);;
  sq99 <- (s <- sqc "SQ_9I";; bb_single P s);;
  b <- bb_flip P sq11;; assert (bb_eqb b sq99).
(** bitboard.rs:143-153 *)
Definition doc_bitboard_pop (P : profile) : res unit :=
  sq11 <- (s <- sqc "SQ_1A";; bb_single P s);;
  sq99 <- (s <- sqc "SQ_9I";; bb_single P s);;
  let bitboard := bb_or sq11 sq99 in
  '(bitboard, o) <- bb_pop P bitboard;; assert (is_some o);;;
  '(bitboard, o) <- bb_pop P bitboard;; assert (is_some o);;;
  '(bitboard, o) <- bb_pop P bitboard;; assert (negb (is_some o));;;
  assert (bb_is_empty bitboard).
(** bitboard.rs:227-234 *)
Definition doc_get_file_unchecked (P : profile) : res unit :=
  bitboard <- (s <- sqc "SQ_7G";; bb_single P s);;
  p <- bb_get_file_unchecked P bitboard 7;; assert (p =? N.shiftl 1 6);;;
  a <- (s <- sqc "SQ_8G";; bb_single P s);;
  b <- (s <- sqc "SQ_8H";; bb_single P s);;
  p <- bb_get_file_unchecked P (bb_or a b) 8;; assert (p =? N.lor (N.shiftl 1 7) (N.shiftl 1 6)).
(** bitboard.rs:487-491, 505-509 *)
Definition doc_bitboard_not (P : profile) : res unit :=
  n <- bb_count P (bb_not bb_empty);; assert (n =? 81).
(** color.rs:23-28 *)
Definition doc_color_flip (P : profile) : res unit :=
  c <- color_flip Black;; assert (color_eqb c White);;;
  c <- color_flip White;; assert (color_eqb c Black).
(** color.rs:52-59 *)
Definition doc_color_num (P : profile) : res unit :=
  let values := repeat 0%Z (N.to_nat COLOR_NUM) in
  i <- color_array_index P Black;; values <- arr_store values i 10%Z;;
  i <- color_array_index P White;; values <- arr_store values i (-10)%Z;;
  Ret tt.
(** hand.rs:17-21 *)
Definition doc_hand_new (P : profile) : res unit :=
  assert (hand_eqb hand_new hand_default).
(** hand.rs:30-36 *)
Definition doc_hand_added (P : profile) : res unit :=
  o <- hand_added P hand_new Pawn;; hand <- unwrap o;;
  n <- hand_count P hand Pawn;; assert (opt_eqb N.eqb n (Some 1));;;
  n <- hand_count P hand Rook;; assert (opt_eqb N.eqb n (Some 0)).
(** hand.rs:38-53 *)
Definition doc_hand_wraps (P : profile) : res unit :=
  hand <- for_each (range 0 255) (fun _ hand => o <- hand_added P hand Pawn;; unwrap o) hand_new;;
  n <- hand_count P hand Pawn;; assert (opt_eqb N.eqb n (Some 255));;;
  o <- hand_added P hand Pawn;; hand <- unwrap o;;
  n <- hand_count P hand Pawn;; assert (opt_eqb N.eqb n (Some 0)).
(** hand.rs:66-83 *)
Definition doc_hand_removed (P : profile) : res unit :=
  o <- hand_added P hand_new Pawn;; hand <- unwrap o;;
  o <- hand_added P hand Pawn;; hand <- unwrap o;;
  o <- hand_added P hand Pawn;; hand <- unwrap o;;
  n <- hand_count P hand Pawn;; assert (opt_eqb N.eqb n (Some 3));;;
  o <- hand_removed P hand Pawn;; hand <- unwrap o;;
  n <- hand_count P hand Pawn;; assert (opt_eqb N.eqb n (Some 2));;;
  o <- hand_removed P hand Bishop;; assert (opt_eqb hand_eqb o None).
(** hand.rs:145-150 *)
Definition doc_is_hand_piece (P : profile) : res unit :=
  l <- all_hand_pieces;; assert (forallb is_hand_piece l);;;
  assert (N.of_nat (List.length (filter is_hand_piece pk_all)) =? NUM_HAND_PIECES).
(** hand.rs:167-173 *)
Definition doc_all_hand_pieces (P : profile) : res unit :=
  l <- all_hand_pieces;; assert (list_eqb pk_eqb l [Pawn; Lance; Knight; Silver; Gold; Bishop; Rook]).
(** hand.rs:182-187 *)
Definition doc_num_hand_pieces (P : profile) : res unit :=
  l <- all_hand_pieces;; assert (N.of_nat (List.length l) =? NUM_HAND_PIECES).
(** hand.rs:205-217 *)
Definition doc_hands_to_usi (P : profile) : res unit :=
  o <- hand_added P hand_new Pawn;; hand <- unwrap o;;
  o <- hand_added P hand Pawn;; hand <- unwrap o;;
  o <- hand_added P hand Pawn;; hand <- unwrap o;;
  t <- to_usi_owned P (hands_to_usi P string_sink [hand; hand]);; assert (bytes_eqb t (bytes "3P3p"));;;
  o <- hand_added P hand Rook;; hand <- unwrap o;;
  o <- hand_added P hand Bishop;; hand <- unwrap o;;
  t <- to_usi_owned P (hands_to_usi P string_sink [hand_default; hand]);; assert (bytes_eqb t (bytes "rb3p")).
(** mv.rs:33-38 *)
Definition doc_move_from (P : profile) : res unit :=
  m <- normal_const "SQ_1B" "SQ_3D" false;; s <- sqc "SQ_1B";; assert (opt_eqb sq_eqb (mv_from m) (Some s));;;
  m <- drop_const P "B_P" "SQ_3D";; assert (opt_eqb sq_eqb (mv_from m) None).
(** mv.rs:48-53 *)
Definition doc_move_to (P : profile) : res unit :=
  m <- normal_const "SQ_1B" "SQ_3D" false;; s <- sqc "SQ_3D";; assert (sq_eqb (mv_to m) s);;;
  m <- drop_const P "B_P" "SQ_4E";; s <- sqc "SQ_4E";; assert (sq_eqb (mv_to m) s).
(** mv.rs:135-144 *)
Definition doc_move_to_usi (P : profile) : res unit :=
  m <- normal_const "SQ_7G" "SQ_7F" false;; t <- to_usi_owned P (move_to_usi P string_sink m);; assert (bytes_eqb t (bytes "7g7f"));;;
  m <- normal_const "SQ_8H" "SQ_2B" true;; t <- to_usi_owned P (move_to_usi P string_sink m);; assert (bytes_eqb t (bytes "8h2b+"));;;
  m <- drop_const P "B_S" "SQ_5B";; t <- to_usi_owned P (move_to_usi P string_sink m);; assert (bytes_eqb t (bytes "S*5b")).
(** mv.rs:215-223 *)
Definition doc_compact_normal (P : profile) : res unit :=
  f <- sqc "SQ_1B";; t <- sqc "SQ_3D";;
  a <- cm_of_move P (Normal f t false);; b <- cm_normal P f t false;; assert (cm_eqb a b).
(** mv.rs:232-239 *)
Definition doc_compact_drop (P : profile) : res unit :=
  p <- piece_const P "W_G";; t <- sqc "SQ_3D";;
  a <- cm_of_move P (Drop p t);; b <- cm_drop P p t;; assert (cm_eqb a b).
(** piece.rs:12-17 *)
Definition doc_piece (P : profile) : res unit :=
  n <- size_of 8 "Piece";; assert (n =? 1);;;
  p <- piece_const P "B_P";; assert (piece_as_u8 p <=? 14).
(** piece.rs:139-147 *)
Definition doc_piece_num (P : profile) : res unit :=
  let values := repeat 0%Z (N.to_nat PIECE_NUM) in
  p <- piece_const P "W_P";; i <- piece_array_index P p;; values <- arr_store values i (-10)%Z;;
  p <- piece_const P "B_L";; i <- piece_array_index P p;; values <- arr_store values i (25)%Z;;
  p <- piece_const P "W_PR";; i <- piece_array_index P p;; values <- arr_store values i (-155)%Z;;
  Ret tt.
(** piece_kind.rs:231-239 *)
Definition doc_piece_kind_num (P : profile) : res unit :=
  let values := repeat 0%Z (N.to_nat PIECE_KIND_NUM) in
  i <- pk_array_index P Pawn;; values <- arr_store values i 10%Z;;
  i <- pk_array_index P Lance;; values <- arr_store values i 25%Z;;
  i <- pk_array_index P ProRook;; values <- arr_store values i 155%Z;;
  Ret tt.
(** position.rs:154-161 *)
Definition doc_position_side_to_move (P : profile) : res unit :=
  pos <- pos_startpos P;; assert (color_eqb (pos_side_to_move pos) Black);;;
  mv <- normal_const "SQ_7G" "SQ_7F" false;; '(pos, o) <- pos_make_move P pos mv;; unwrap o;;;
  assert (color_eqb (pos_side_to_move pos) White).
(** position.rs:200-208 *)
Definition doc_position_piece_at (P : profile) : res unit :=
  pos <- pos_startpos P;;
  s <- sqc "SQ_2H";; black_rook <- pos_piece_at P pos s;; p <- piece_const P "B_R";; assert (opt_eqb piece_eqb black_rook (Some p));;;
  s <- sqc "SQ_3H";; vacant <- pos_piece_at P pos s;; assert (opt_eqb piece_eqb vacant None).
(** position.rs:254-262 *)
Definition doc_position_piece_bitboard (P : profile) : res unit :=
  pos <- pos_startpos P;;
  p <- piece_const P "B_R";; a <- pos_piece_bitboard P pos p;;
  b <- (s <- sqc "SQ_2H";; bb_single P s);;
  assert (bb_eqb a b);;;
  p <- piece_const P "W_R";; a <- pos_piece_bitboard P pos p;;
  b <- (s <- sqc "SQ_8B";; bb_single P s);;
  assert (bb_eqb a b).
(** position.rs:270-274 *)
Definition doc_position_last_move (P : profile) : res unit :=
  pos <- pos_startpos P;; m <- pos_last_move P pos;; assert (opt_eqb move_eqb m None).
(** position.rs:281-285 *)
Definition doc_position_last_compact_move (P : profile) : res unit :=
  pos <- pos_startpos P;; assert (opt_eqb cm_eqb (pos_last_compact_move pos) None).
(** position.rs:292-296 *)
Definition doc_position_moves (P : profile) : res unit :=
  pos <- pos_startpos P;; assert (list_eqb move_eqb (moves pos) []).
(** position.rs:338-346 *)
Definition doc_position_to_sfen (P : profile) : res unit :=
  pos <- pos_startpos P;; s <- pos_to_sfen_owned P pos;; assert (bytes_eqb s (bytes "lnsgkgsnl/1r5b1/ppppppppp/9/9/9/PPPPPPPPP/1B5R1/LNSGKGSNL b - 1")).
(** position.rs:489-496 *)
Definition doc_partial_side_to_move (P : profile) : res unit :=
  pos <- pp_startpos P;; assert (color_eqb (side_to_move pos) Black);;;
  mv <- normal_const "SQ_7G" "SQ_7F" false;; '(pos, o) <- make_move P mv pos;; unwrap o;;;
  assert (color_eqb (side_to_move pos) White).
(** position.rs:555-563 *)
Definition doc_partial_piece_at (P : profile) : res unit :=
  pos <- pp_startpos P;;
  s <- sqc "SQ_2H";; black_rook <- piece_at P pos s;; p <- piece_const P "B_R";; assert (opt_eqb piece_eqb black_rook (Some p));;;
  s <- sqc "SQ_3H";; vacant <- piece_at P pos s;; assert (opt_eqb piece_eqb vacant None).
(** position.rs:638-646 *)
Definition doc_partial_piece_bitboard (P : profile) : res unit :=
  pos <- pp_startpos P;;
  p <- piece_const P "B_R";; a <- piece_bitboard P pos p;;
  b <- (s <- sqc "SQ_2H";; bb_single P s);;
  assert (bb_eqb a b);;;
  p <- piece_const P "W_R";; a <- piece_bitboard P pos p;;
  b <- (s <- sqc "SQ_8B";; bb_single P s);;
  assert (bb_eqb a b).
(** position.rs:656-662 *)
Definition doc_partial_piece_kind_bitboard (P : profile) : res unit :=
  pos <- pp_startpos P;; rooks <- piece_kind_bitboard P pos Rook;;
  a <- (s <- sqc "SQ_2H";; bb_single P s);;
  b <- (s <- sqc "SQ_8B";; bb_single P s);;
  assert (bb_eqb rooks (bb_or a b)).
(** position.rs:671-675 *)
Definition doc_partial_last_move (P : profile) : res unit :=
  pos <- pp_startpos P;; m <- last_move P pos;; assert (opt_eqb move_eqb m None).
(** position.rs:682-686 *)
Definition doc_partial_last_compact_move (P : profile) : res unit :=
  pos <- pp_startpos P;; assert (opt_eqb cm_eqb (last_compact_move pos) None).
(** position.rs:807-815 *)
Definition doc_partial_to_sfen (P : profile) : res unit :=
  pos <- pp_startpos P;; s <- to_sfen_owned P pos;; assert (bytes_eqb s (bytes "lnsgkgsnl/1r5b1/ppppppppp/9/9/9/PPPPPPPPP/1B5R1/LNSGKGSNL b - 1")).
(** square.rs:40-45 *)
Definition doc_square_new_relative (P : profile) : res unit :=
  o <- sq_new_relative P 3 4 Black;; s <- sqc "SQ_3D";; assert (opt_eqb sq_eqb o (Some s));;;
  o <- sq_new_relative P 3 4 White;; s <- sqc "SQ_7F";; assert (opt_eqb sq_eqb o (Some s)).
(** square.rs:68-73 *)
Definition doc_square_file (P : profile) : res unit :=
  s <- sqc "SQ_3D";; n <- sq_file P s;; assert (n =? 3).
(** square.rs:82-87 *)
Definition doc_square_rank (P : profile) : res unit :=
  s <- sqc "SQ_3D";; n <- sq_rank P s;; assert (n =? 4).
(** square.rs:97-102 *)
Definition doc_square_index (P : profile) : res unit :=
  s <- sqc "SQ_3D";; n <- sq_index P s;; assert (n =? 22).
(** square.rs:131-137 *)
Definition doc_square_flip (P : profile) : res unit :=
  s <- sqc "SQ_1A";; a <- sq_flip P s;; b <- sqc "SQ_9I";; assert (sq_eqb a b);;;
  s <- sqc "SQ_3D";; a <- sq_flip P s;; b <- sqc "SQ_7F";; assert (sq_eqb a b).
(** square.rs:146-153 *)
Definition doc_square_from_u8 (P : profile) : res unit :=
  s <- sqc "SQ_3C";; assert (opt_eqb sq_eqb (sq_from_u8 21) (Some s));;;
  assert (opt_eqb sq_eqb (sq_from_u8 0) None);;;
  assert (opt_eqb sq_eqb (sq_from_u8 82) None).
(** square.rs:195-201 *)
Definition doc_square_shift (P : profile) : res unit :=
  s <- sqc "SQ_3C";; o <- sq_shift P s (-1) 3;; t <- sqc "SQ_2F";; assert (opt_eqb sq_eqb o (Some t));;;
  s <- sqc "SQ_8D";; o <- sq_shift P s 0 (-3);; t <- sqc "SQ_8A";; assert (opt_eqb sq_eqb o (Some t));;;
  s <- sqc "SQ_3C";; o <- sq_shift P s (-4) 3;; assert (opt_eqb sq_eqb o None).
(** square.rs:230-236 *)
Definition doc_square_num (P : profile) : res unit :=
  let values := repeat None (N.to_nat SQUARE_NUM) in
  s <- sqc "SQ_5I";; i <- sq_array_index P s;; values <- arr_store values i (Some King);;
  Ret tt.
(** square.rs:243-247 *)
Definition doc_square_all (P : profile) : res unit :=
  l <- sq_all;; assert (N.of_nat (List.length l) =? 81).
Definition doc_tests : list (profile -> res unit) := [
  doc_bitboard_empty; doc_bitboard_single; doc_bitboard_count; doc_bitboard_is_empty; doc_bitboard_contains; doc_bitboard_flip; doc_bitboard_pop;
  doc_get_file_unchecked; doc_bitboard_not; doc_color_flip; doc_color_num; doc_hand_new; doc_hand_added; doc_hand_wraps; doc_hand_removed;
  doc_is_hand_piece; doc_all_hand_pieces; doc_num_hand_pieces; doc_hands_to_usi; doc_move_from; doc_move_to; doc_move_to_usi; doc_compact_normal;
  doc_compact_drop; doc_piece; doc_piece_num; doc_piece_kind_num; doc_position_side_to_move; doc_position_piece_at; doc_position_piece_bitboard;
  doc_position_last_move; doc_position_last_compact_move; doc_position_moves; doc_position_to_sfen; doc_partial_side_to_move; doc_partial_piece_at;
  doc_partial_piece_bitboard; doc_partial_piece_kind_bitboard; doc_partial_last_move; doc_partial_last_compact_move; doc_partial_to_sfen;
  doc_square_new_relative; doc_square_file; doc_square_rank; doc_square_index; doc_square_flip; doc_square_from_u8; doc_square_shift; doc_square_num;
  doc_square_all].
