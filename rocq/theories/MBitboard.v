(** Model of /repo/shogi_core/src/bitboard.rs *)
From Verif Require Export Machine MSquare.

(** bitboard.rs:9-12 [struct Bitboard([u64; 2])]. Indexing the two-element array with the constants
    0 and 1 is in bounds and modelled by the two fields. *)
Record bitboard := Bitboard { bb0 : N; bb1 : N }.

(** bitboard.rs:15-16 *)
Definition MASK0 : N := 2 ^ 63 - 1.
Definition MASK1 : N := 2 ^ 18 - 1.

(** bitboard.rs:28-30 [Bitboard::empty] (and the C version 34-36; derived [Default]) *)
Definition bb_empty : bitboard := Bitboard 0 0.

(** bitboard.rs:53-61 [Bitboard::single_inlined]; [Bitboard::single] (48-50) and the C version (65-67)
    call it *)
Definition bb_single (P : profile) (s : square) : res bitboard :=
  index <- sq_array_index P s;;
  if index <? 63 then (v <- shl_w P 64 1 index;; Ret (Bitboard v 0))
  else (d <- sub_w P 64 index 63;; v <- shl_w P 64 1 d;; Ret (Bitboard 0 v)).

(** [u64::count_ones] *)
Definition count_ones64 (x : N) : N :=
  N.of_nat (length (filter (N.testbit x) (range 0 64))).

(** bitboard.rs:80-82 [Bitboard::count] *)
Definition bb_count (P : profile) (b : bitboard) : res N :=
  s <- add_w P 32 (count_ones64 (bb0 b)) (count_ones64 (bb1 b));; Ret (cast_w 8 s).

(** bitboard.rs:98-100 [Bitboard::is_empty] *)
Definition bb_is_empty (b : bitboard) : bool := (bb0 b =? 0) && (bb1 b =? 0).

(** bitboard.rs:112-120 [Bitboard::contains] *)
Definition bb_contains (P : profile) (b : bitboard) (s : square) : res bool :=
  i <- sq_index P s;;
  index <- sub_w P 8 i 1;;
  overlap <- (if index <? 63 then (v <- shl_w P 64 1 index;; Ret (N.land (bb0 b) v))
              else (d <- sub_w P 8 index 63;; v <- shl_w P 64 1 d;; Ret (N.land (bb1 b) v)));;
  Ret (negb (overlap =? 0)).

(** [u64::reverse_bits]: bit [i] of the result is bit [63 - i] of [x] *)
Definition reverse_bits64 (x : N) : N :=
  fold_left (fun acc i => N.lor acc (if N.testbit x i then N.shiftl 1 (63 - i) else 0)) (range 0 64) 0.

(** bitboard.rs:132-137 [Bitboard::flip] *)
Definition bb_flip (P : profile) (b : bitboard) : res bitboard :=
  a <- shr_w P 64 (bb0 b) 17;;
  c <- shl_w P 64 (bb1 b) 46;;
  let fst_rev := N.land (N.lor a c) (not_w 64 1) in
  snd_rev <- shl_w P 64 (bb0 b) 46;;
  Ret (Bitboard (reverse_bits64 fst_rev) (reverse_bits64 snd_rev)).

(** bitboard.rs:186-189 [Bitboard::to_u128] *)
Definition bb_to_u128 (P : profile) (b : bitboard) : res N :=
  h <- shl_w P 128 (bb1 b) 64;; Ret (N.lor h (bb0 b)).

(** bitboard.rs:200-204 [Bitboard::from_u128_unchecked] *)
Definition bb_from_u128_unchecked (P : profile) (a : N) : res bitboard :=
  let v0 := cast_w 64 a in
  h <- shr_w P 128 a 64;;
  let v1 := cast_w 64 h in
  Ret (Bitboard v0 v1).

(** [u128::trailing_zeros] of a non-zero value *)
Fixpoint pos_trailing_zeros (p : positive) : N :=
  match p with
  | xO q => N.succ (pos_trailing_zeros q)
  | _ => 0
  end.
Definition trailing_zeros128 (x : N) : N :=
  match x with 0 => 128 | Npos p => pos_trailing_zeros p end.

(** bitboard.rs:154-171 [Bitboard::pop]: new value of [*self] and the returned square *)
Definition bb_pop (P : profile) (b : bitboard) : res (bitboard * option square) :=
  repr <- bb_to_u128 P b;;
  if repr =? 0 then Ret (b, None)
  else
    let pos := trailing_zeros128 repr in
    sq <- (if pos <? 63
           then (v <- add_w P 8 (cast_w 8 pos) 1;; sq_from_u8_unchecked v)
           else sq_from_u8_unchecked (cast_w 8 pos));;
    (* [debug_assert!(self.contains(square))]: the condition is not evaluated in builds without debug assertions *)
    (if debug_assertions P then (c <- bb_contains P b sq;; debug_assert P c) else Ret tt);;;
    let newrepr := N.land repr (wrapping_sub_w 128 repr 1) in
    b' <- bb_from_u128_unchecked P newrepr;;
    Ret (b', Some sq).

(** bitboard.rs:175-177 [Bitboard_pop], C interface *)
Definition Bitboard_pop (P : profile) (b : bitboard) : res (bitboard * option_square) :=
  '(b', s) <- bb_pop P b;; Ret (b', os_from s).

(** bitboard.rs:361-363 [Iterator::next] *)
Definition bb_next (P : profile) (b : bitboard) : res (bitboard * option square) := bb_pop P b.

(** bitboard.rs:365-367 [Iterator::size_hint] *)
Definition bb_size_hint (b : bitboard) : N * option N := (0, Some 81).

(** [for sq in bb] / [collect()]: call [next] until it returns [None]. [fuel] bounds the number of
    calls; [None] means that the fuel ran out. *)
Fixpoint bb_collect (P : profile) (fuel : nat) (b : bitboard) : res (option (bitboard * list square)) :=
  match fuel with
  | O => Ret None
  | S fuel' =>
      '(b', o) <- bb_next P b;;
      match o with
      | None => Ret (Some (b', []))
      | Some s =>
          r <- bb_collect P fuel' b';;
          Ret (match r with Some (b'', l) => Some (b'', s :: l) | None => None end)
      end
  end.

(** bitboard.rs:212-220 [Bitboard::from_file_unchecked] *)
Definition bb_from_file_unchecked (P : profile) (file pattern : N) : res bitboard :=
  if file <=? 7 then
    a <- sub_w P 8 file 1;; n <- mul_w P 8 a 9;; v <- shl_w P 64 pattern n;; Ret (Bitboard v 0)
  else
    a <- sub_w P 8 file 8;; n <- mul_w P 8 a 9;; v <- shl_w P 64 pattern n;; Ret (Bitboard 0 v).

(** bitboard.rs:236-243 [Bitboard::get_file_unchecked] *)
Definition bb_get_file_unchecked (P : profile) (b : bitboard) (file : N) : res N :=
  pattern <-
    (if file <=? 7
     then (a <- sub_w P 8 file 1;; n <- mul_w P 8 a 9;; shr_w P 64 (bb0 b) n)
     else (a <- sub_w P 8 file 8;; n <- mul_w P 8 a 9;; shr_w P 64 (bb1 b) n));;
  Ret (N.land (cast_w 16 pattern) 511).

(** bitboard.rs:248-250 [Bitboard::or]; [BitOr] (macro at 370-430, used at 437-441) is the same
    expression, as are its by-reference, assign and C (462-468) variants *)
Definition bb_or (a b : bitboard) : bitboard := Bitboard (N.lor (bb0 a) (bb0 b)) (N.lor (bb1 a) (bb1 b)).
(** bitboard.rs:255-257 [Bitboard::and]; [BitAnd] 432-436, C 453-459 *)
Definition bb_and (a b : bitboard) : bitboard := Bitboard (N.land (bb0 a) (bb0 b)) (N.land (bb1 a) (bb1 b)).
(** bitboard.rs:262-264 [Bitboard::xor]; [BitXor] 442-446, C 471-477 *)
Definition bb_xor (a b : bitboard) : bitboard := Bitboard (N.lxor (bb0 a) (bb0 b)) (N.lxor (bb1 a) (bb1 b)).
(** bitboard.rs:417-428 [BitOrAssign<Square>], [BitAndAssign<Square>], [BitXorAssign<Square>] *)
Definition bb_or_square (P : profile) (b : bitboard) (s : square) : res bitboard :=
  x <- bb_single P s;; Ret (bb_or b x).
Definition bb_and_square (P : profile) (b : bitboard) (s : square) : res bitboard :=
  x <- bb_single P s;; Ret (bb_and b x).
Definition bb_xor_square (P : profile) (b : bitboard) (s : square) : res bitboard :=
  x <- bb_single P s;; Ret (bb_xor b x).
(** bitboard.rs:269-271 [Bitboard::andnot] *)
Definition bb_andnot (a b : bitboard) : bitboard :=
  Bitboard (N.land (not_w 64 (bb0 a)) (bb0 b)) (N.land (not_w 64 (bb1 a)) (bb1 b)).
(** bitboard.rs:480-514 [Not for Bitboard] and [Not for &Bitboard]; C interface 517-520 *)
Definition bb_not (a : bitboard) : bitboard :=
  Bitboard (N.land (not_w 64 (bb0 a)) MASK0) (N.land (not_w 64 (bb1 a)) MASK1).

(** derived [PartialEq] (bitboard.rs:10) *)
Definition bb_eqb (a b : bitboard) : bool := (bb0 a =? bb0 b) && (bb1 a =? bb1 b).

(** bitboard.rs:528-530 [struct ByteSwappedBitboard([u64; 2])] *)
Record byte_swapped := ByteSwapped { bs0 : N; bs1 : N }.
(** derived [PartialEq] (bitboard.rs:529) *)
Definition bs_eqb (a b : byte_swapped) : bool := (bs0 a =? bs0 b) && (bs1 a =? bs1 b).

(** [u64::swap_bytes]: byte [k] of the result is byte [7 - k] of [x] *)
Definition swap_bytes64 (x : N) : N :=
  fold_left (fun acc k => N.lor acc (N.shiftl (N.land (N.shiftr x (8 * k)) 255) (8 * (7 - k))))
            (range 0 8) 0.

(** bitboard.rs:276-278 [Bitboard::swap_bytes] *)
Definition bb_swap_bytes (b : bitboard) : byte_swapped :=
  ByteSwapped (swap_bytes64 (bb1 b)) (swap_bytes64 (bb0 b)).
(** bitboard.rs:595-597 [ByteSwappedBitboard::swap_bytes] *)
Definition bs_swap_bytes (b : byte_swapped) : bitboard :=
  Bitboard (swap_bytes64 (bs1 b)) (swap_bytes64 (bs0 b)).
(** bitboard.rs:538-541 [ByteSwappedBitboard::to_u128] *)
Definition bs_to_u128 (P : profile) (b : byte_swapped) : res N :=
  h <- shl_w P 128 (bs1 b) 64;; Ret (N.lor h (bs0 b)).
(** bitboard.rs:553-557 [ByteSwappedBitboard::from_u128_unchecked] *)
Definition bs_from_u128_unchecked (P : profile) (a : N) : res byte_swapped :=
  let v0 := cast_w 64 a in
  h <- shr_w P 128 a 64;;
  let v1 := cast_w 64 h in
  Ret (ByteSwapped v0 v1).
(** bitboard.rs:563-565, 571-573, 579-581, 587-589 *)
Definition bs_or (a b : byte_swapped) : byte_swapped := ByteSwapped (N.lor (bs0 a) (bs0 b)) (N.lor (bs1 a) (bs1 b)).
Definition bs_and (a b : byte_swapped) : byte_swapped := ByteSwapped (N.land (bs0 a) (bs0 b)) (N.land (bs1 a) (bs1 b)).
Definition bs_xor (a b : byte_swapped) : byte_swapped := ByteSwapped (N.lxor (bs0 a) (bs0 b)) (N.lxor (bs1 a) (bs1 b)).
Definition bs_andnot (a b : byte_swapped) : byte_swapped :=
  ByteSwapped (N.land (not_w 64 (bs0 a)) (bs0 b)) (N.land (not_w 64 (bs1 a)) (bs1 b)).

(** bitboard.rs:286-294 [Bitboard::shift_down] *)
Definition bb_shift_down (P : profile) (b : bitboard) (delta : N) : res bitboard :=
  debug_assert P (delta <=? 9);;;
  let top := 0x8040201008040200 in
  d <- sub_w P 8 9 delta;;
  t <- shr_w P 64 top d;;
  mask <- sub_w P 64 top t;;
  x <- shl_w P 64 (bb0 b) delta;;
  y <- shl_w P 32 (cast_w 32 (bb1 b)) delta;;
  Ret (Bitboard (N.land x mask) (N.land y (cast_w 32 mask))).

(** bitboard.rs:302-310 [Bitboard::shift_up] *)
Definition bb_shift_up (P : profile) (b : bitboard) (delta : N) : res bitboard :=
  debug_assert P (delta <=? 9);;;
  let bottom := 0x40201008040201 in
  d <- sub_w P 8 9 delta;;
  t <- shl_w P 64 bottom d;;
  mask <- sub_w P 64 t bottom;;
  x <- shr_w P 64 (bb0 b) delta;;
  y <- shr_w P 32 (cast_w 32 (bb1 b)) delta;;
  Ret (Bitboard (N.land x mask) (N.land y (cast_w 32 mask))).

(** bitboard.rs:318-334 [Bitboard::shift_left] *)
Definition bb_shift_left (P : profile) (b : bitboard) (delta : N) : res bitboard :=
  debug_assert P (delta <=? 9);;;
  if delta <=? 1 then
    n <- mul_w P 8 9 delta;;
    x <- shl_w P 64 (bb0 b) n;;
    y <- shl_w P 64 (bb1 b) n;;
    m <- sub_w P 8 63 n;;
    z <- shr_w P 64 (bb0 b) m;;
    Ret (Bitboard (N.land x MASK0) (N.land (N.lor y z) MASK1))
  else if delta <=? 7 then
    n <- mul_w P 8 9 delta;;
    x <- shl_w P 64 (bb0 b) n;;
    m <- sub_w P 8 63 n;;
    z <- shr_w P 64 (bb0 b) m;;
    Ret (Bitboard (N.land x MASK0) (N.land z MASK1))
  else
    n <- mul_w P 8 9 delta;;
    m <- sub_w P 8 n 63;;
    x <- shl_w P 64 (bb0 b) m;;
    Ret (Bitboard 0 (N.land x MASK1)).

(** bitboard.rs:342-355 [Bitboard::shift_right] *)
Definition bb_shift_right (P : profile) (b : bitboard) (delta : N) : res bitboard :=
  debug_assert P (delta <=? 9);;;
  if delta <=? 1 then
    n <- mul_w P 8 9 delta;;
    x <- shr_w P 64 (bb0 b) n;;
    m <- sub_w P 8 63 n;;
    y <- shl_w P 64 (bb1 b) m;;
    z <- shr_w P 64 (bb1 b) n;;
    Ret (Bitboard (N.lor x y) z)
  else if delta <=? 7 then
    n <- mul_w P 8 9 delta;;
    x <- shr_w P 64 (bb0 b) n;;
    m <- sub_w P 8 63 n;;
    y <- shl_w P 64 (bb1 b) m;;
    Ret (Bitboard (N.lor x y) 0)
  else
    n <- mul_w P 8 9 delta;;
    m <- sub_w P 8 n 63;;
    x <- shr_w P 64 (bb1 b) m;;
    Ret (Bitboard x 0).
