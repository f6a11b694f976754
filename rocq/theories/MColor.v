(** Model of /repo/shogi_core/src/color.rs *)
From Verif Require Export Machine.

(** color.rs:9-18 [enum Color], [repr(u8)] *)
Inductive color := Black | White.

(** color.rs:13,17: discriminants, [self as u8] *)
Definition color_as_u8 (c : color) : N := match c with Black => 1 | White => 2 end.

(** [core::mem::transmute::<u8, Color>]: UB for a value that is no discriminant *)
Definition color_transmute (n : N) : res color :=
  match n with 1 => Ret Black | 2 => Ret White | _ => UB end.

(** color.rs:29-35 [Color::flip] *)
Definition color_flip (c : color) : res color := color_transmute (N.lxor (color_as_u8 c) 3).

(** color.rs:41-48 [Color::array_index] *)
Definition color_array_index (P : profile) (c : color) : res N :=
  result <- sub_w P 64 (color_as_u8 c) 1;;
  unreachable_if (2 <=? result);;;
  Ret result.

(** color.rs:61 [Color::NUM] *)
Definition COLOR_NUM : N := 2.

(** color.rs:64-66 [Color::all] *)
Definition color_all : list color := [Black; White].

(** derived [PartialEq] (color.rs:8) *)
Definition color_eqb (a b : color) : bool :=
  match a, b with Black, Black => true | White, White => true | _, _ => false end.

(** color.rs:72-79 [ToUsi for Color] *)
Definition color_to_usi {W} (K : sink W) (c : color) : writer W :=
  wstr K (match c with Black => bytes "b" | White => bytes "w" end).
