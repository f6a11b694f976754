(** Model of /repo/shogi_core/src/piece.rs *)
From Verif Require Export Machine MCommon MColor MPieceKind.

(** piece.rs:18-21 [struct Piece(NonZeroU8)] *)
Record piece := Piece { piece_repr : N }.

(** piece.rs:29-31 [struct OptionPiece(u8)] *)
Record option_piece := OptionPiece { op_repr : N }.

(** piece.rs:36-45 [Piece::new] *)
Definition piece_new (P : profile) (k : piece_kind) (c : color) : res piece :=
  let disc := pk_as_u8 k in
  value <- add_w P 8 disc (match c with Black => 0 | White => 16 end);;
  n <- nonzero_new_unchecked value;;
  Ret (Piece n).

(** piece.rs:54-66 [Piece::to_parts] *)
Definition piece_to_parts (p : piece) : res (piece_kind * color) :=
  let data := piece_repr p in
  let disc := N.land data 15 in
  k <- pk_from_u8_unchecked disc;;
  Ret (k, if 16 <=? data then White else Black).

(** piece.rs:71-73 [Piece::piece_kind] *)
Definition piece_piece_kind (p : piece) : res piece_kind :=
  kc <- piece_to_parts p;; Ret (fst kc).

(** piece.rs:78-80 [Piece::color] *)
Definition piece_color (p : piece) : res color :=
  kc <- piece_to_parts p;; Ret (snd kc).

(** piece.rs:85-87 [Piece::as_u8] *)
Definition piece_as_u8 (p : piece) : N := piece_repr p.

(** piece.rs:91-94 [Piece::promote] *)
Definition piece_promote (P : profile) (p : piece) : res (option piece) :=
  '(k, c) <- piece_to_parts p;;
  match pk_promote k with
  | None => Ret None
  | Some k' => q <- piece_new P k' c;; Ret (Some q)
  end.

(** piece.rs:105-108 [Piece::unpromote] *)
Definition piece_unpromote (P : profile) (p : piece) : res (option piece) :=
  '(k, c) <- piece_to_parts p;;
  match pk_unpromote k with
  | None => Ret None
  | Some k' => q <- piece_new P k' c;; Ret (Some q)
  end.

(** piece.rs:119-121 [Piece::from_u8_unchecked] *)
Definition piece_from_u8_unchecked (v : N) : res piece :=
  n <- nonzero_new_unchecked v;; Ret (Piece n).

(** piece.rs:153 [Piece::NUM] (feature [experimental]) *)
Definition PIECE_NUM : N := 31.

(** piece.rs:129-135 [Piece::array_index] (feature [experimental]) *)
Definition piece_array_index (P : profile) (p : piece) : res N :=
  result <- sub_w P 64 (piece_repr p) 1;;
  unreachable_if (PIECE_NUM <=? result);;;
  Ret result.

(** piece.rs:156-169 [Piece::all]: the nested loops, with the mutable variables [result] and [index] *)
Definition piece_all (P : profile) : res (list piece) :=
  p0 <- piece_new P Pawn Black;;
  '(result, index) <-
    for_each pk_all (fun k st =>
      for_each color_all (fun c st =>
        let '(result, index) := st in
        p <- piece_new P k c;;
        result <- arr_store_unchecked result index p;;
        index <- add_w P 64 index 1;;
        Ret (result, index)) st)
      (repeat p0 28, 0);;
  Ret result.

(** piece.rs:175-183 [From<Option<Piece>> for OptionPiece] *)
Definition op_from (p : option piece) : option_piece :=
  OptionPiece (match p with Some r => piece_repr r | None => 0 end).

(** piece.rs:185-190 [From<OptionPiece> for Option<Piece>] *)
Definition op_into (o : option_piece) : option piece :=
  match nonzero_new (op_repr o) with Some n => Some (Piece n) | None => None end.

(** derived [PartialEq] of [Piece] and [OptionPiece] (piece.rs:19,30) *)
Definition piece_eqb (a b : piece) : bool := piece_repr a =? piece_repr b.
Definition op_eqb (a b : option_piece) : bool := op_repr a =? op_repr b.

(** piece.rs:48-50, 97-101, 111-115: C interfaces *)
Definition Piece_new (P : profile) (k : piece_kind) (c : color) : res piece := piece_new P k c.
Definition Piece_promote (P : profile) (p : piece) : res option_piece :=
  q <- piece_promote P p;; Ret (op_from q).
Definition Piece_unpromote (P : profile) (p : piece) : res option_piece :=
  q <- piece_unpromote P p;; Ret (op_from q).

(** piece.rs:195-227 [ToUsi for Piece] *)
Definition piece_to_usi {W} (P : profile) (K : sink W) (p : piece) : writer W :=
  wbind (piece_to_parts p) (fun kc =>
  let '(k, c) := kc in
  if pk_as_u8 ProPawn <=? pk_as_u8 k then
    let table := bytes "+P+L+N+S+B+R+p+l+n+s+b+r" in
    let index0 := match c with Black => 0 | White => 6 end in
    wbind (s <- add_w P 64 index0 (pk_as_u8 k);; sub_w P 64 s (pk_as_u8 ProPawn)) (fun index =>
    wbind (debug_assert P (index <? 12)) (fun _ =>
    wbind (lo <- mul_w P 64 2 index;; hi0 <- mul_w P 64 2 index;; hi <- add_w P 64 hi0 2;;
           slice_unchecked table lo hi) (fun s =>
    wstr K s)))
  else
    wbind (debug_assert P (pk_as_u8 k <=? pk_as_u8 King)) (fun _ =>
    let symbols := bytes "PLNSGBRKplnsgbrk" in
    let offset := match c with Black => 0 | White => 8 end in
    wbind (s <- add_w P 64 offset (pk_as_u8 k);; i <- sub_w P 64 s 1;;
           arr_get_unchecked symbols i) (fun ch =>
    write_ascii_byte K ch))).
