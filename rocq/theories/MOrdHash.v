(** Model of the [Ord], [PartialOrd] and [Hash] impls: /repo/shogi_core/src/annotated_derive.rs and the places
    where its macros are used, plus the hand-written impls of mv.rs:73-131. *)
From Verif Require Export MPosition MLegality.

(** ** [Ord::cmp] *)

(** Lexicographic continuation, as in [Ord] for tuples *)
Definition cmp_then (a b : comparison) : comparison := match a with Eq => b | _ => a end.

(** [Ord] for slices, arrays and [Vec]: lexicographic, a proper prefix is smaller *)
Fixpoint list_cmp {A} (cmp : A -> A -> comparison) (a b : list A) : comparison :=
  match a, b with
  | [], [] => Eq
  | [], _ :: _ => Lt
  | _ :: _, [] => Gt
  | x :: a', y :: b' => cmp_then (cmp x y) (list_cmp cmp a' b')
  end.

(** [Ord for bool]: [false < true] *)
Definition bool_cmp (a b : bool) : comparison :=
  match a, b with false, true => Lt | true, false => Gt | _, _ => Eq end.

(** annotated_derive.rs:87-105 [impl_ord_for_fieldless_enum!] at color.rs:69, piece_kind.rs:279,
    game_resolution.rs:42, illegal_move_kind.rs:65, legality.rs:24 *)
Definition color_cmp (a b : color) : comparison := color_as_u8 a ?= color_as_u8 b.
Definition pk_cmp (a b : piece_kind) : comparison := pk_as_u8 a ?= pk_as_u8 b.
Definition gr_cmp (a b : game_resolution) : comparison := gr_as_u8 a ?= gr_as_u8 b.
Definition imk_cmp (a b : illegal_move_kind) : comparison := imk_as_u8 a ?= imk_as_u8 b.
Definition ps_cmp (a b : position_status) : comparison := ps_as_u8 a ?= ps_as_u8 b.

(** annotated_derive.rs:46-64 [impl_ord_for_single_field!] at square.rs:263,307, piece.rs:172,192,
    mv.rs:287,324, game_resolution.rs:83, illegal_move_kind.rs:129, hand.rs:198,
    bitboard.rs:522,600 ([OptionPieceKind] has no such impl) *)
Definition sq_cmp (a b : square) : comparison := sq_repr a ?= sq_repr b.
Definition os_cmp (a b : option_square) : comparison := os_repr a ?= os_repr b.
Definition piece_cmp (a b : piece) : comparison := piece_repr a ?= piece_repr b.
Definition op_cmp (a b : option_piece) : comparison := op_repr a ?= op_repr b.
Definition cm_cmp (a b : compact_move) : comparison := cm_repr a ?= cm_repr b.
Definition ocm_cmp (a b : option_compact_move) : comparison := ocm_repr a ?= ocm_repr b.
Definition ogr_cmp (a b : option_game_resolution) : comparison := ogr_repr a ?= ogr_repr b.
Definition rui_cmp (a b : result_unit_imk) : comparison := rui_repr a ?= rui_repr b.
Definition hand_cmp (a b : hand) : comparison := list_cmp N.compare (hand_bytes a) (hand_bytes b).
Definition bb_cmp (a b : bitboard) : comparison := list_cmp N.compare [bb0 a; bb1 a] [bb0 b; bb1 b].
Definition bs_cmp (a b : byte_swapped) : comparison := list_cmp N.compare [bs0 a; bs1 a] [bs0 b; bs1 b].

(** mv.rs:83-112 [Ord for Move] *)
Definition move_cmp (a b : move) : comparison :=
  match a, b with
  | Normal _ _ _, Drop _ _ => Lt
  | Drop _ _, Normal _ _ _ => Gt
  | Normal f1 t1 p1, Normal f2 t2 p2 => cmp_then (sq_cmp f1 f2) (cmp_then (sq_cmp t1 t2) (bool_cmp p1 p2))
  | Drop p1 t1, Drop p2 t2 => cmp_then (piece_cmp p1 p2) (sq_cmp t1 t2)
  end.

(** annotated_derive.rs:66-84 [impl_ord_with_fields!] at position.rs:856 *)
Definition pp_cmp (a b : partial_position) : comparison :=
  cmp_then (color_cmp (pp_side a) (pp_side b))
  (cmp_then (pp_ply a ?= pp_ply b)
  (cmp_then (list_cmp hand_cmp (pp_hands a) (pp_hands b))
  (cmp_then (list_cmp op_cmp (pp_board a) (pp_board b))
            (ocm_cmp (pp_last_move a) (pp_last_move b))))).
(** position.rs:364 *)
Definition pos_cmp (a b : position) : comparison :=
  cmp_then (pp_cmp (pos_initial a) (pos_initial b))
  (cmp_then (pp_cmp (pos_inner a) (pos_inner b)) (list_cmp move_cmp (pos_moves a) (pos_moves b))).
(** position.rs:52,94 *)
Definition game_cmp {A} (cmp : A -> A -> comparison) (a b : game_of A) : comparison :=
  cmp_then (cmp (g_inner a) (g_inner b)) (ogr_cmp (g_resolution a) (g_resolution b)).

(** [PartialOrd::partial_cmp] of slices and arrays: lexicographic *)
Fixpoint list_partial_cmp {A} (pcmp : A -> A -> option comparison) (a b : list A) : option comparison :=
  match a, b with
  | [], [] => Some Eq
  | [], _ :: _ => Some Lt
  | _ :: _, [] => Some Gt
  | x :: a', y :: b' =>
      match pcmp x y with Some Eq => list_partial_cmp pcmp a' b' | r => r end
  end.
(** [PartialOrd] of the primitive integers *)
Definition int_partial_cmp (a b : N) : option comparison := Some (a ?= b).
(** annotated_derive.rs:91-93: fieldless enums *)
Definition color_partial_cmp (a b : color) : option comparison := int_partial_cmp (color_as_u8 a) (color_as_u8 b).
Definition pk_partial_cmp (a b : piece_kind) : option comparison := int_partial_cmp (pk_as_u8 a) (pk_as_u8 b).
Definition gr_partial_cmp (a b : game_resolution) : option comparison := int_partial_cmp (gr_as_u8 a) (gr_as_u8 b).
Definition imk_partial_cmp (a b : illegal_move_kind) : option comparison := int_partial_cmp (imk_as_u8 a) (imk_as_u8 b).
Definition ps_partial_cmp (a b : position_status) : option comparison := int_partial_cmp (ps_as_u8 a) (ps_as_u8 b).
(** annotated_derive.rs:50-54: single fields *)
Definition sq_partial_cmp (a b : square) : option comparison := int_partial_cmp (sq_repr a) (sq_repr b).
Definition os_partial_cmp (a b : option_square) : option comparison := int_partial_cmp (os_repr a) (os_repr b).
Definition piece_partial_cmp (a b : piece) : option comparison := int_partial_cmp (piece_repr a) (piece_repr b).
Definition op_partial_cmp (a b : option_piece) : option comparison := int_partial_cmp (op_repr a) (op_repr b).
Definition cm_partial_cmp (a b : compact_move) : option comparison := int_partial_cmp (cm_repr a) (cm_repr b).
Definition ocm_partial_cmp (a b : option_compact_move) : option comparison := int_partial_cmp (ocm_repr a) (ocm_repr b).
Definition ogr_partial_cmp (a b : option_game_resolution) : option comparison := int_partial_cmp (ogr_repr a) (ogr_repr b).
Definition rui_partial_cmp (a b : result_unit_imk) : option comparison := int_partial_cmp (rui_repr a) (rui_repr b).
Definition hand_partial_cmp (a b : hand) : option comparison :=
  list_partial_cmp int_partial_cmp (hand_bytes a) (hand_bytes b).
Definition bb_partial_cmp (a b : bitboard) : option comparison :=
  list_partial_cmp int_partial_cmp [bb0 a; bb1 a] [bb0 b; bb1 b].
Definition bs_partial_cmp (a b : byte_swapped) : option comparison :=
  list_partial_cmp int_partial_cmp [bs0 a; bs1 a] [bs0 b; bs1 b].
(** mv.rs:75-79 *)
Definition move_partial_cmp (a b : move) : option comparison := Some (move_cmp a b).
(** annotated_derive.rs:70-74: several fields *)
Definition pp_partial_cmp (a b : partial_position) : option comparison := Some (pp_cmp a b).
Definition pos_partial_cmp (a b : position) : option comparison := Some (pos_cmp a b).
Definition game_partial_cmp {A} (cmp : A -> A -> comparison) (a b : game_of A) : option comparison := Some (game_cmp cmp a b).

(** ** [Hash::hash]: the sequence of calls made on the [Hasher] *)
Inductive htok :=
| HInt (width value : N)          (* write_u8 / write_u16 / ... *)
| HDisc (value : N)               (* Hash for core::mem::Discriminant *)
| HLen (n : N)                    (* write_length_prefix *)
| HSlice (width : N) (l : list N)  (* write: the raw bytes of a slice of integers *)
.

(** [Hash] of slices, arrays and [Vec] whose element type has no specialised [hash_slice] *)
Definition hash_list {A} (h : A -> list htok) (l : list A) : list htok :=
  HLen (N.of_nat (length l)) :: flat_map h l.
(** [Hash] of [[u8; n]] and [[u64; n]] *)
Definition hash_ints (w : N) (l : list N) : list htok := [HLen (N.of_nat (length l)); HSlice w l].

(** annotated_derive.rs:33-43 [impl_hash_for_fieldless_enum!] *)
Definition color_hash (c : color) : list htok := [HDisc (color_as_u8 c)].
Definition pk_hash (k : piece_kind) : list htok := [HDisc (pk_as_u8 k)].
Definition gr_hash (g : game_resolution) : list htok := [HDisc (gr_as_u8 g)].
Definition imk_hash (k : illegal_move_kind) : list htok := [HDisc (imk_as_u8 k)].
Definition ps_hash (s : position_status) : list htok := [HDisc (ps_as_u8 s)].
(** annotated_derive.rs:8-18 [impl_hash_for_single_field!] *)
Definition sq_hash (s : square) : list htok := [HInt 8 (sq_repr s)].
Definition os_hash (s : option_square) : list htok := [HInt 8 (os_repr s)].
Definition piece_hash (p : piece) : list htok := [HInt 8 (piece_repr p)].
Definition op_hash (p : option_piece) : list htok := [HInt 8 (op_repr p)].
Definition cm_hash (m : compact_move) : list htok := [HInt 16 (cm_repr m)].
Definition ocm_hash (m : option_compact_move) : list htok := [HInt 16 (ocm_repr m)].
Definition ogr_hash (g : option_game_resolution) : list htok := [HInt 8 (ogr_repr g)].
Definition rui_hash (r : result_unit_imk) : list htok := [HInt 8 (rui_repr r)].
Definition hand_hash (h : hand) : list htok := hash_ints 8 (hand_bytes h).
Definition bb_hash (b : bitboard) : list htok := hash_ints 64 [bb0 b; bb1 b].
Definition bs_hash (b : byte_swapped) : list htok := hash_ints 64 [bs0 b; bs1 b].
(** mv.rs:114-131 [Hash for Move]; [bool] hashes as a u8 *)
Definition move_hash (m : move) : list htok :=
  match m with
  | Normal from to promote =>
      HDisc 0 :: sq_hash from ++ sq_hash to ++ [HInt 8 (if promote then 1 else 0)]
  | Drop p to => HDisc 1 :: piece_hash p ++ sq_hash to
  end.
(** annotated_derive.rs:20-30 [impl_hash_with_fields!] at position.rs:857 *)
Definition pp_hash (s : partial_position) : list htok :=
  color_hash (pp_side s) ++ [HInt 16 (pp_ply s)] ++ hash_list hand_hash (pp_hands s) ++
  hash_list op_hash (pp_board s) ++ ocm_hash (pp_last_move s).
(** position.rs:366 *)
Definition pos_hash (p : position) : list htok :=
  pp_hash (pos_initial p) ++ pp_hash (pos_inner p) ++ hash_list move_hash (pos_moves p).
(** position.rs:54,95 *)
Definition game_hash {A} (h : A -> list htok) (g : game_of A) : list htok :=
  h (g_inner g) ++ ogr_hash (g_resolution g).
