(** Which of the conditions on the unsafe functions are needed, and for what (C79). *)
From Verif Require Import TUnsafe.
From Verif Require Import MColor MPieceKind MPiece MBitboard MResolution SpecBase SpecBoard SpecUnsafe.

(** C79: [pop] on any two words: the lowest bit decides. *)
Theorem c79_pop : forall P b t r, u64_pair (bb0 b) (bb1 b) -> set_bits b = t :: r ->
  exists b', u64_pair (bb0 b') (bb1 b') /\ set_bits b' = r /\ bb_pop P b = (s <- visit P t;; Ret (b', Some s)).
Proof. exact c79_pop_pf. Qed.
Print Assumptions c79_pop.
Example c79_pop_ex : (* bits 63 and 100; and bit 100 alone *)
  set_bits (Bitboard (2 ^ 63) (2 ^ 36)) = [63; 100] /\ bb_pop Release (Bitboard (2 ^ 63) (2 ^ 36)) = Ret (Bitboard 0 (2 ^ 36), Some (square_at 7 9)) /\
  bb_pop Debug (Bitboard (2 ^ 63) (2 ^ 36)) = Panic /\ bb_pop Release (Bitboard 0 (2 ^ 36)) = UB.
Proof. vm_compute. repeat split. Qed.

(** C79: walking through any two words: bit by bit, upwards. *)
Theorem c79_walk : forall P b, u64_pair (bb0 b) (bb1 b) -> walk P b = map_res (visit P) (set_bits b).
Proof. exact c79_walk_pf. Qed.
Print Assumptions c79_walk.
Example c79_walk_ex : (* 1A, 7I twice, 9I *)
  set_bits (Bitboard (2 ^ 63 + 2 ^ 62 + 1) (2 ^ 17)) = [0; 62; 63; 81] /\
  walk Release (Bitboard (2 ^ 63 + 2 ^ 62 + 1) (2 ^ 17)) = Ret [square_at 1 1; square_at 7 9; square_at 7 9; square_at 9 9].
Proof. vm_compute. repeat split. Qed.

(** C79: which words are walked through without undefined behaviour, and which without a panic. *)
Theorem c79_defined : forall P b, u64_pair (bb0 b) (bb1 b) ->
  (walk P b = Panic <-> debug_assertions P = true /\ 2 ^ 63 <= bb0 b) /\
  (walk P b = UB <-> 2 ^ 18 <= bb1 b /\ (debug_assertions P = true -> bb0 b < 2 ^ 63)).
Proof. exact c79_defined_pf. Qed.
Print Assumptions c79_defined.
Example c79_defined_ex : (* the outcomes in the four builds *)
  walk Release (Bitboard (2 ^ 63) (2 ^ 18)) = UB /\ walk Checked (Bitboard (2 ^ 63) (2 ^ 18)) = UB /\
  walk Debug (Bitboard (2 ^ 63) (2 ^ 18)) = Panic /\ walk Asserting (Bitboard (2 ^ 63) (2 ^ 18)) = Panic /\ walk Debug (Bitboard 5 (2 ^ 18)) = UB /\
  walk Release (Bitboard (2 ^ 63) 0) = Ret [square_at 7 9] /\ walk Debug (Bitboard 5 (2 ^ 17)) = Ret [square_at 1 1; square_at 1 3; square_at 9 9].
Proof. vm_compute. repeat split. Qed.

(** C79: [from_u128_unchecked] with a number that is not a valid representation: undefined behaviour follows exactly from
    the numbers of more than 82 bits; bit 63 alone only leads to a panic in a build with debug assertions. *)
Theorem c79_from_u128 : forall P a, a < 2 ^ 128 -> exists b, bb_from_u128_unchecked P a = Ret b /\ bb_to_u128 P b = Ret a /\
  (valid_bb b <-> a < 2 ^ 82 /\ N.testbit a 63 = false) /\
  (debug_assertions P = false -> (walk P b = UB <-> 2 ^ 82 <= a)) /\
  (debug_assertions P = true -> ((exists l, walk P b = Ret l) <-> valid_bb b)).
Proof. exact c79_from_u128_pf. Qed.
Print Assumptions c79_from_u128.
Example c79_from_u128_ex :
  bb_from_u128_unchecked Debug (2 ^ 82) = Ret (Bitboard 0 (2 ^ 18)) /\ walk Release (Bitboard 0 (2 ^ 18)) = UB /\
  bb_from_u128_unchecked Debug (2 ^ 82 - 1 - 2 ^ 63) = Ret (Bitboard MASK0 MASK1) /\
  match walk Debug (Bitboard MASK0 MASK1) with Ret l => length l = 81%nat | _ => False end.
Proof. vm_compute. repeat split. Qed.

(** C79: a shift by more than nine squares panics in a build with debug assertions; with overflow checks alone [shift_down] and
    [shift_up] still do. With neither, [shift_up], [shift_left] and [shift_right] make valid boards of valid boards. *)
Theorem c79_shift_outside : forall P b delta, valid_bb b -> 9 < delta ->
  (P <> Release -> bb_shift_down P b delta = Panic /\ bb_shift_up P b delta = Panic) /\
  (debug_assertions P = true -> bb_shift_left P b delta = Panic /\ bb_shift_right P b delta = Panic) /\
  (debug_assertions P = false ->
   (bb_shift_left P b delta = Panic <-> overflow_checks P = true /\ 14 < delta) /\
   (bb_shift_right P b delta = Panic <-> overflow_checks P = true /\ 14 < delta) /\
   (bb_shift_left P b delta = Panic \/ exists l, bb_shift_left P b delta = Ret l /\ valid_bb l) /\
   (bb_shift_right P b delta = Panic \/ exists r, bb_shift_right P b delta = Ret r /\ valid_bb r)) /\
  (exists u, bb_shift_up Release b delta = Ret u /\ valid_bb u) /\
  (exists d, bb_shift_down Release b delta = Ret d /\ u64_pair (bb0 d) (bb1 d)).
Proof. exact c79_shift_outside_pf. Qed.
Print Assumptions c79_shift_outside.
Example c79_shift_outside_ex : (* a shift by sixteen files does not empty the board; a shift by ten files may pass unnoticed with overflow checks *)
  bb_shift_left Debug (Bitboard 1 0) 16 = Panic /\ bb_shift_left Checked (Bitboard 1 0) 16 = Panic /\
  bb_shift_left Release (Bitboard 1 0) 16 = Ret (Bitboard 0 (2 ^ 17)) /\ bb_shift_left Checked (Bitboard 1 0) 10 = Ret (Bitboard 0 0) /\
  bb_shift_right Release (Bitboard 0 (2 ^ 17)) 16 = Ret (Bitboard 1 0) /\ bb_shift_up Release (Bitboard (2 ^ 62) 0) 20 = Ret (Bitboard (2 ^ 42) 0).
Proof. vm_compute. repeat split. Qed.

(** C79: [shift_down] by 10 to 27 squares makes a board of a valid board whose iteration is undefined, in a build without overflow checks and
    debug assertions (in the others it panics, see above). *)
Theorem c79_shift_down : forall delta, 9 < delta < 28 ->
  exists b d, valid_bb b /\ bb_shift_down Release b delta = Ret d /\ walk Release d = UB.
Proof. exact c79_shift_down_pf. Qed.
Print Assumptions c79_shift_down.
Example c79_shift_down_ex : (* 9I moved ten squares down *)
  bb_shift_down Release (Bitboard 0 (2 ^ 17)) 10 = Ret (Bitboard 0 (2 ^ 27)) /\ walk Release (Bitboard 0 (2 ^ 27)) = UB /\
  bb_shift_down Checked (Bitboard 0 (2 ^ 17)) 10 = Panic.
Proof. vm_compute. repeat split. Qed.

(** C79: [from_file_unchecked] with a pattern of more than nine bits: on file 9 the board that it makes is one whose
    iteration is undefined; on file 7 bit 63 is set if bit 9 of the pattern is; on the other files the board is valid. *)
Theorem c79_from_file : forall P file pattern, 1 <= file <= 9 -> pattern < 65536 -> exists b,
  bb_from_file_unchecked P file pattern = Ret b /\ u64_pair (bb0 b) (bb1 b) /\
  (valid_bb b <-> ~ (file = 7 /\ N.testbit pattern 9 = true) /\ ~ (file = 9 /\ 512 <= pattern)) /\
  (walk P b = UB <-> file = 9 /\ 512 <= pattern).
Proof. exact c79_from_file_pf. Qed.
Print Assumptions c79_from_file.
Example c79_from_file_ex : (* the same pattern on the files 1, 7 and 9 *)
  bb_from_file_unchecked Debug 1 512 = Ret (Bitboard 512 0) /\ walk Debug (Bitboard 512 0) = Ret [square_at 2 1] /\
  bb_from_file_unchecked Debug 7 512 = Ret (Bitboard (2 ^ 63) 0) /\ bb_from_file_unchecked Debug 9 512 = Ret (Bitboard 0 (2 ^ 18)) /\ walk Debug (Bitboard 0 (2 ^ 18)) = UB.
Proof. vm_compute. repeat split. Qed.

(** C79: on a file that does not exist [from_file_unchecked] and [get_file_unchecked] panic in a build with overflow checks, except for the
    numbers 10 to 15; without them they return. No number of a file makes [get_file_unchecked] undefined or its result larger
    than nine bits. With the numbers 10 to 14 and a pattern that is not empty [from_file_unchecked] makes a board whose
    iteration is undefined in every build. *)
Theorem c79_file_outside : forall P b file pattern, u64_pair (bb0 b) (bb1 b) -> file < 256 -> ~ (1 <= file <= 9) ->
  (bb_get_file_unchecked P b file = Panic \/ exists v, bb_get_file_unchecked P b file = Ret v /\ v < 512) /\
  (bb_from_file_unchecked P file pattern = Panic \/ exists d, bb_from_file_unchecked P file pattern = Ret d /\ u64_pair (bb0 d) (bb1 d)) /\
  (bb_get_file_unchecked P b file = Panic <-> overflow_checks P = true /\ (file = 0 \/ 16 <= file)) /\
  (bb_from_file_unchecked P file pattern = Panic <-> overflow_checks P = true /\ (file = 0 \/ 16 <= file)) /\
  (10 <= file <= 15 -> valid_bb b -> bb_get_file_unchecked P b file = Ret 0) /\
  (10 <= file <= 14 -> 0 < pattern < 512 -> exists d, bb_from_file_unchecked P file pattern = Ret d /\ walk P d = UB).
Proof. exact c79_file_outside_pf. Qed.
Print Assumptions c79_file_outside.
Example c79_file_outside_ex : (* there is no file 10; without overflow checks number 72 is file 8 *)
  bb_from_file_unchecked Debug 10 1 = Ret (Bitboard 0 (2 ^ 18)) /\ walk Debug (Bitboard 0 (2 ^ 18)) = UB /\
  bb_get_file_unchecked Debug (Bitboard MASK0 MASK1) 10 = Ret 0 /\ bb_get_file_unchecked Checked (Bitboard MASK0 MASK1) 72 = Panic /\
  bb_get_file_unchecked Asserting (Bitboard MASK0 MASK1) 72 = Ret 511 /\ bb_get_file_unchecked Release (Bitboard 7 0) 0 = Ret 0.
Proof. vm_compute. repeat split. Qed.

(** C79: [get_file_unchecked] on a file of the board returns nine bits for any two words. *)
Theorem c79_get_file : forall P b file, u64_pair (bb0 b) (bb1 b) -> 1 <= file <= 9 ->
  exists v, bb_get_file_unchecked P b file = Ret v /\ v < 512 /\
  forall r, 1 <= r <= 9 -> N.testbit v (r - 1) = true <->
    In (if file <=? 7 then 9 * (file - 1) + (r - 1) else 64 + 9 * (file - 8) + (r - 1)) (set_bits b).
Proof. exact c79_get_file_pf. Qed.
Print Assumptions c79_get_file.
Example c79_get_file_ex : bb_get_file_unchecked Debug (Bitboard (2 ^ 54 + 2 ^ 63) (2 ^ 18 + 8)) 7 = Ret 1 /\ bb_get_file_unchecked Debug (Bitboard (2 ^ 54 + 2 ^ 63) (2 ^ 18 + 8)) 8 = Ret 8 /\
  bb_get_file_unchecked Debug (Bitboard (2 ^ 54 + 2 ^ 63) (2 ^ 18 + 8)) 9 = Ret 0.
Proof. vm_compute. repeat split. Qed.

(** C79: [ByteSwappedBitboard::from_u128_unchecked] with any number: what it makes swaps to a board whose iteration is
    undefined (without debug assertions) exactly if one of the bits 0 to 39 or 42 to 47 is set. *)
Theorem c79_swapped : forall P a, a < 2 ^ 128 -> exists s, bs_from_u128_unchecked P a = Ret s /\ bs_to_u128 P s = Ret a /\
  (debug_assertions P = false -> (walk P (bs_swap_bytes s) = UB <-> exists i, (i < 40 \/ 42 <= i < 48) /\ N.testbit a i = true)) /\
  (valid_bb (bs_swap_bytes s) <-> forall i, i < 40 \/ 42 <= i < 48 \/ i = 71 -> N.testbit a i = false).
Proof. exact c79_swapped_pf. Qed.
Print Assumptions c79_swapped.
Example c79_swapped_ex : (* bit 40 is 9H, bit 42 is nothing, bit 71 is the bit that is taken for 7I without debug assertions *)
  (exists s, bs_from_u128_unchecked Debug (2 ^ 40) = Ret s /\ walk Debug (bs_swap_bytes s) = Ret [square_at 9 8]) /\
  (exists s, bs_from_u128_unchecked Checked (2 ^ 42) = Ret s /\ walk Checked (bs_swap_bytes s) = UB) /\
  (exists s, bs_from_u128_unchecked Debug (2 ^ 71) = Ret s /\ walk Debug (bs_swap_bytes s) = Panic).
Proof. split; [|split]; eexists; (split; [vm_compute; reflexivity|]); vm_compute; reflexivity. Qed.

(** C79: the unchecked conversions from numbers: undefined exactly outside of the documented ranges. For [Piece] the conversion itself is undefined
    for 0 alone; of the other numbers without a piece those ending in the hexadecimal digits 0 and F have undefined parts and the rest look
    like White's pieces. *)
Theorem c79_numbers : forall v, v < 256 ->
  (sq_from_u8_unchecked v = UB <-> ~ 1 <= v <= 81) /\ (pk_from_u8_unchecked v = UB <-> ~ 1 <= v <= 14) /\
  (gr_from_u8_unchecked v = UB <-> ~ 1 <= v <= 5) /\ (imk_from_u8_unchecked v = UB <-> ~ 1 <= v <= 7) /\
  (piece_from_u8_unchecked v = UB <-> v = 0) /\
  forall p, piece_from_u8_unchecked v = Ret p ->
    (piece_to_parts p = UB <-> v mod 16 = 0 \/ v mod 16 = 15) /\
    (31 <= v -> 1 <= v mod 16 <= 14 -> piece_to_parts p = piece_to_parts (Piece (v mod 16 + 16)) /\ ~ valid_piece p).
Proof. exact c79_numbers_pf. Qed.
Print Assumptions c79_numbers.
Example c79_numbers_ex : (* 33 is no piece, but has the parts of White's pawn, which is 17 *)
  piece_from_u8_unchecked 33 = Ret (Piece 33) /\ piece_to_parts (Piece 33) = Ret (Pawn, White) /\ piece_to_parts (Piece 17) = Ret (Pawn, White) /\
  piece_to_parts (Piece 15) = UB /\ piece_from_u8_unchecked 0 = UB /\ sq_from_u8_unchecked 82 = UB /\ sq_from_u8_unchecked 81 = Ret (Square 81).
Proof. vm_compute. repeat split. Qed.
