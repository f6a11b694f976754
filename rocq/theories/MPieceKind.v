(** Model of /repo/shogi_core/src/piece_kind.rs *)
From Verif Require Export Machine MCommon.

(** piece_kind.rs:9-108 [enum PieceKind], [repr(u8)] *)
Inductive piece_kind :=
| Pawn | Lance | Knight | Silver | Gold | Bishop | Rook | King
| ProPawn | ProLance | ProKnight | ProSilver | ProBishop | ProRook.

(** piece_kind.rs:16-107: discriminants, [self as u8] and [self as usize] *)
Definition pk_as_u8 (k : piece_kind) : N :=
  match k with
  | Pawn => 1 | Lance => 2 | Knight => 3 | Silver => 4 | Gold => 5 | Bishop => 6 | Rook => 7
  | King => 8 | ProPawn => 9 | ProLance => 10 | ProKnight => 11 | ProSilver => 12
  | ProBishop => 13 | ProRook => 14
  end.

(** piece_kind.rs:116-133 [PieceKind::promote] *)
Definition pk_promote (k : piece_kind) : option piece_kind :=
  match k with
  | Pawn => Some ProPawn
  | Lance => Some ProLance
  | Knight => Some ProKnight
  | Silver => Some ProSilver
  | Gold => None
  | Bishop => Some ProBishop
  | Rook => Some ProRook
  | King => None
  | ProPawn => None
  | ProLance => None
  | ProKnight => None
  | ProSilver => None
  | ProBishop => None
  | ProRook => None
  end.

(** piece_kind.rs:139-156 [PieceKind::unpromote] *)
Definition pk_unpromote (k : piece_kind) : option piece_kind :=
  match k with
  | Pawn => None
  | Lance => None
  | Knight => None
  | Silver => None
  | Gold => None
  | Bishop => None
  | Rook => None
  | King => None
  | ProPawn => Some Pawn
  | ProLance => Some Lance
  | ProKnight => Some Knight
  | ProSilver => Some Silver
  | ProBishop => Some Bishop
  | ProRook => Some Rook
  end.

(** piece_kind.rs:187-189 [PieceKind::from_u8_unchecked]: a transmute, UB outside of 1..=14 *)
Definition pk_from_u8_unchecked (n : N) : res piece_kind :=
  match n with
  | 1 => Ret Pawn | 2 => Ret Lance | 3 => Ret Knight | 4 => Ret Silver | 5 => Ret Gold
  | 6 => Ret Bishop | 7 => Ret Rook | 8 => Ret King | 9 => Ret ProPawn | 10 => Ret ProLance
  | 11 => Ret ProKnight | 12 => Ret ProSilver | 13 => Ret ProBishop | 14 => Ret ProRook
  | _ => UB
  end.

(** piece_kind.rs:164-171 [PieceKind::from_u8] *)
Definition pk_from_u8 (repr : N) : res (option piece_kind) :=
  if in_range 1 14 repr then (k <- pk_from_u8_unchecked repr;; Ret (Some k)) else Ret None.

(** piece_kind.rs:220-227 [PieceKind::array_index] *)
Definition pk_array_index (P : profile) (k : piece_kind) : res N :=
  result <- sub_w P 64 (pk_as_u8 k) 1;;
  unreachable_if (14 <=? result);;;
  Ret result.

(** piece_kind.rs:242 [PieceKind::NUM] *)
Definition PIECE_KIND_NUM : N := 14.

(** piece_kind.rs:247-252 [PieceKind::option_array_index] (feature [experimental]) *)
Definition pk_option_array_index (k : option piece_kind) : N :=
  match k with Some k => pk_as_u8 k | None => 0 end.
(** piece_kind.rs:256 *)
Definition PIECE_KIND_OPTION_NUM : N := 15.

(** piece_kind.rs:259-276 [PieceKind::all] *)
Definition pk_all : list piece_kind :=
  [Pawn; Lance; Knight; Silver; Gold; Bishop; Rook; King;
   ProPawn; ProLance; ProKnight; ProSilver; ProBishop; ProRook].

(** derived [PartialEq] (piece_kind.rs:8) *)
Definition pk_eqb (a b : piece_kind) : bool := pk_as_u8 a =? pk_as_u8 b.

(** piece_kind.rs:285-305 [ToUsi for PieceKind] *)
Definition pk_to_usi {W} (P : profile) (K : sink W) (k : piece_kind) : writer W :=
  if pk_as_u8 ProPawn <=? pk_as_u8 k then
    let table := bytes "+P+L+N+S+B+R" in
    wbind (sub_w P 64 (pk_as_u8 k) (pk_as_u8 ProPawn)) (fun index =>
    wbind (debug_assert P (index <? 12)) (fun _ =>
    wbind (lo <- mul_w P 64 2 index;; hi0 <- mul_w P 64 2 index;; hi <- add_w P 64 hi0 2;;
           slice_unchecked table lo hi) (fun s =>
    wstr K s)))
  else
    wbind (debug_assert P (pk_as_u8 k <=? pk_as_u8 King)) (fun _ =>
    let symbols := bytes "PLNSGBRK" in
    wbind (i <- sub_w P 64 (pk_as_u8 k) 1;; arr_get_unchecked symbols i) (fun c =>
    write_ascii_byte K c)).

(** piece_kind.rs:318-319 [struct OptionPieceKind(u8)] *)
Record option_piece_kind := OptionPieceKind { opk_repr : N }.

(** piece_kind.rs:321-329 [From<Option<PieceKind>> for OptionPieceKind] *)
Definition opk_from (k : option piece_kind) : option_piece_kind :=
  OptionPieceKind (match k with Some k => pk_as_u8 k | None => 0 end).

(** piece_kind.rs:331-342 [From<OptionPieceKind> for Option<PieceKind>] *)
Definition opk_into (o : option_piece_kind) : res (option piece_kind) :=
  if opk_repr o =? 0 then Ret None
  else (k <- pk_from_u8_unchecked (opk_repr o);; Ret (Some k)).

(** piece_kind.rs:174-177, 196-200, 203-214: C interfaces *)
Definition PieceKind_from_u8 (repr : N) : res option_piece_kind :=
  k <- pk_from_u8 repr;; Ret (opk_from k).
Definition PieceKind_promote (k : piece_kind) : option_piece_kind := opk_from (pk_promote k).
Definition PieceKind_unpromote (k : piece_kind) : option_piece_kind := opk_from (pk_unpromote k).
