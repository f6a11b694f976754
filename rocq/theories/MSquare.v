(** Model of /repo/shogi_core/src/square.rs *)
From Verif Require Export Machine MCommon MColor.

(** square.rs:9-11 [struct Square(NonZeroU8)] *)
Record square := Square { sq_repr : N }.

(** square.rs:286-288 [struct OptionSquare(u8)] *)
Record option_square := OptionSquare { os_repr : N }.

(** square.rs:290-298 [From<Option<Square>> for OptionSquare] *)
Definition os_from (s : option square) : option_square :=
  OptionSquare (match s with Some r => sq_repr r | None => 0 end).

(** square.rs:300-305 [From<OptionSquare> for Option<Square>] *)
Definition os_into (o : option_square) : option square :=
  match nonzero_new (os_repr o) with Some n => Some (Square n) | None => None end.

(** square.rs:254-260 [Square::sanity_check] *)
Definition sanity_check (P : profile) (s : square) : res unit :=
  debug_assert P (in_range 1 81 (sq_repr s));;;
  unreachable_if (negb (in_range 1 81 (sq_repr s))).

(** square.rs:173-178 [Square::from_u8_unchecked] (and the C version, 186-191) *)
Definition sq_from_u8_unchecked (v : N) : res square :=
  unreachable_if (negb (in_range 1 81 v));;;
  n <- nonzero_new_unchecked v;;
  Ret (Square n).

(** [file * 9 + rank - 9] on u8 (square.rs:25,51) *)
Definition sq_index_expr (P : profile) (file rank : N) : res N :=
  a <- mul_w P 8 file 9;; b <- add_w P 8 a rank;; sub_w P 8 b 9.

(** square.rs:19-27 [Square::new] *)
Definition sq_new (P : profile) (file rank : N) : res (option square) :=
  if (9 <=? wrapping_sub_w 8 file 1) || (9 <=? wrapping_sub_w 8 rank 1) then Ret None
  else
    v <- sq_index_expr P file rank;;
    n <- nonzero_new_unchecked v;;
    Ret (Some (Square n)).

(** square.rs:31-33 [Square_new], C interface *)
Definition Square_new (P : profile) (file rank : N) : res option_square :=
  s <- sq_new P file rank;; Ret (os_from s).

(** square.rs:46-58 [Square::new_relative] *)
Definition sq_new_relative (P : profile) (file rank : N) (c : color) : res (option square) :=
  if (9 <=? wrapping_sub_w 8 file 1) || (9 <=? wrapping_sub_w 8 rank 1) then Ret None
  else
    relative_index <- sq_index_expr P file rank;;
    v <- match c with
         | Black => Ret relative_index
         | White => sub_w P 8 82 relative_index
         end;;
    n <- nonzero_new_unchecked v;;
    Ret (Some (Square n)).

(** square.rs:62-64 [Square_new_relative], C interface *)
Definition Square_new_relative (P : profile) (file rank : N) (c : color) : res option_square :=
  s <- sq_new_relative P file rank c;; Ret (os_from s).

(** square.rs:75-78 [Square::file] *)
Definition sq_file (P : profile) (s : square) : res N :=
  sanity_check P s;;;
  a <- add_w P 8 (sq_repr s) 8;;
  b <- mul_w P 32 a 57;;
  c <- shr_w P 32 b 9;;
  Ret (cast_w 8 c).

(** square.rs:89-92 [Square::rank] *)
Definition sq_rank (P : profile) (s : square) : res N :=
  sanity_check P s;;;
  a <- add_w P 8 (sq_repr s) 9;;
  f <- sq_file P s;;
  b <- mul_w P 8 9 f;;
  sub_w P 8 a b.

(** square.rs:104-107 [Square::index] *)
Definition sq_index (P : profile) (s : square) : res N :=
  sanity_check P s;;;
  Ret (sq_repr s).

(** square.rs:111-117 [Square::relative_rank] *)
Definition sq_relative_rank (P : profile) (s : square) (c : color) : res N :=
  rank <- sq_rank P s;;
  match c with Black => Ret rank | White => sub_w P 8 10 rank end.

(** square.rs:121-127 [Square::relative_file] *)
Definition sq_relative_file (P : profile) (s : square) (c : color) : res N :=
  file <- sq_file P s;;
  match c with Black => Ret file | White => sub_w P 8 10 file end.

(** square.rs:139-142 [Square::flip] *)
Definition sq_flip (P : profile) (s : square) : res square :=
  v <- sub_w P 8 82 (sq_repr s);; sq_from_u8_unchecked v.

(** square.rs:155-166 [Square::from_u8]. [value as u32] is value-preserving; transmuting a u8 to
    [OptionSquare] (repr(transparent) over u8) is the identity. *)
Definition sq_from_u8 (value : N) : option square :=
  if in_range 0 81 value then os_into (OptionSquare value) else None.

(** square.rs:203-212 [Square::shift] *)
Definition sq_shift (P : profile) (s : square) (file_delta rank_delta : Z) : res (option square) :=
  sanity_check P s;;;
  f <- sq_file P s;;
  let file_m1 := i8_wrap (i8_wrap (u8_as_i8 f + file_delta) - 1) in
  r <- sq_rank P s;;
  let rank_m1 := i8_wrap (i8_wrap (u8_as_i8 r + rank_delta) - 1) in
  if negb ((0 <=? file_m1) && (file_m1 <=? 8))%Z || negb ((0 <=? rank_m1) && (rank_m1 <=? 8))%Z
  then Ret None
  else
    a <- i8_mul P file_m1 9;;
    b <- i8_add P a rank_m1;;
    c <- i8_add P b 1;;
    sq <- sq_from_u8_unchecked (i8_as_u8 c);;
    Ret (Some sq).

(** square.rs:238 [Square::NUM] *)
Definition SQUARE_NUM : N := 81.

(** square.rs:218-226 [Square::array_index] *)
Definition sq_array_index (P : profile) (s : square) : res N :=
  sanity_check P s;;;
  result <- sub_w P 8 (sq_repr s) 1;;
  unreachable_if (SQUARE_NUM <=? result);;;
  Ret result.

(** square.rs:248-250 [Square::all]: the items the iterator yields, in order *)
Definition sq_all : res (list square) := map_res sq_from_u8_unchecked (range 1 82).

(** derived [PartialEq] (square.rs:10,287) *)
Definition sq_eqb (a b : square) : bool := sq_repr a =? sq_repr b.
Definition os_eqb (a b : option_square) : bool := os_repr a =? os_repr b.

(** square.rs:269-277 [ToUsi for Square] *)
Definition sq_to_usi {W} (P : profile) (K : sink W) (s : square) : writer W :=
  wbind (f <- sq_file P s;; add_w P 8 (byte "0") f) (write_ascii_byte K) ?;
  wbind (r <- sq_rank P s;; a <- add_w P 8 (byte "a") r;; sub_w P 8 a 1) (write_ascii_byte K) ?;
  wok.
