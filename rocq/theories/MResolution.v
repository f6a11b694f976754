(** Model of /repo/shogi_core/src/game_resolution.rs and /repo/shogi_core/src/illegal_move_kind.rs *)
From Verif Require Export Machine.

(** game_resolution.rs:7-28 [enum GameResolution], [repr(u8)] *)
Inductive game_resolution := BlackWins | WhiteWins | Draw | Rematch | Aborted.

(** game_resolution.rs:11-27: discriminants *)
Definition gr_as_u8 (g : game_resolution) : N :=
  match g with BlackWins => 1 | WhiteWins => 2 | Draw => 3 | Rematch => 4 | Aborted => 5 end.

(** game_resolution.rs:37-39 [GameResolution::from_u8_unchecked] *)
Definition gr_from_u8_unchecked (n : N) : res game_resolution :=
  match n with
  | 1 => Ret BlackWins | 2 => Ret WhiteWins | 3 => Ret Draw | 4 => Ret Rematch | 5 => Ret Aborted
  | _ => UB
  end.

(** game_resolution.rs:56-58 [struct OptionGameResolution(u8)]; the derived [Default] is 0 *)
Record option_game_resolution := OptionGameResolution { ogr_repr : N }.
Definition ogr_default : option_game_resolution := OptionGameResolution 0.

(** game_resolution.rs:60-68 *)
Definition ogr_from (g : option game_resolution) : option_game_resolution :=
  OptionGameResolution (match g with Some r => gr_as_u8 r | None => 0 end).

(** game_resolution.rs:70-81 *)
Definition ogr_into (o : option_game_resolution) : res (option game_resolution) :=
  if ogr_repr o =? 0 then Ret None
  else (g <- gr_from_u8_unchecked (ogr_repr o);; Ret (Some g)).

Definition gr_eqb (a b : game_resolution) : bool := gr_as_u8 a =? gr_as_u8 b.
Definition ogr_eqb (a b : option_game_resolution) : bool := ogr_repr a =? ogr_repr b.

(** illegal_move_kind.rs:9-38 [enum IllegalMoveKind], [repr(u8)] *)
Inductive illegal_move_kind :=
| TwoPawns | IgnoredCheck | DropPawnMate | DropStuck | NormalStuck | GameFinished | IncorrectMove.

(** illegal_move_kind.rs:13-37: discriminants *)
Definition imk_as_u8 (k : illegal_move_kind) : N :=
  match k with
  | TwoPawns => 1 | IgnoredCheck => 2 | DropPawnMate => 3 | DropStuck => 4 | NormalStuck => 5
  | GameFinished => 6 | IncorrectMove => 7
  end.

(** illegal_move_kind.rs:60-62 [IllegalMoveKind::from_u8_unchecked] *)
Definition imk_from_u8_unchecked (n : N) : res illegal_move_kind :=
  match n with
  | 1 => Ret TwoPawns | 2 => Ret IgnoredCheck | 3 => Ret DropPawnMate | 4 => Ret DropStuck
  | 5 => Ret NormalStuck | 6 => Ret GameFinished | 7 => Ret IncorrectMove
  | _ => UB
  end.

(** illegal_move_kind.rs:45-52 [IllegalMoveKind::from_u8] *)
Definition imk_from_u8 (n : N) : res (option illegal_move_kind) :=
  if in_range 1 7 n then (k <- imk_from_u8_unchecked n;; Ret (Some k)) else Ret None.

(** Rust's [Result<(), E>] *)
Inductive result (E : Type) := ROk | RErr (e : E).
Arguments ROk {E}.
Arguments RErr {E} e.

(** illegal_move_kind.rs:79-81 [struct ResultUnitIllegalMoveKind(u8)]; derived [Default] is 0 *)
Record result_unit_imk := ResultUnitIMK { rui_repr : N }.
Definition rui_default : result_unit_imk := ResultUnitIMK 0.

(** illegal_move_kind.rs:83-91 *)
Definition rui_from_option (k : option illegal_move_kind) : result_unit_imk :=
  ResultUnitIMK (match k with Some r => imk_as_u8 r | None => 0 end).
(** illegal_move_kind.rs:93-104 *)
Definition rui_into_option (o : result_unit_imk) : res (option illegal_move_kind) :=
  if rui_repr o =? 0 then Ret None
  else (k <- imk_from_u8_unchecked (rui_repr o);; Ret (Some k)).
(** illegal_move_kind.rs:106-114 *)
Definition rui_from_result (r : result illegal_move_kind) : result_unit_imk :=
  ResultUnitIMK (match r with RErr k => imk_as_u8 k | ROk => 0 end).
(** illegal_move_kind.rs:116-127 *)
Definition rui_into_result (o : result_unit_imk) : res (result illegal_move_kind) :=
  if rui_repr o =? 0 then Ret ROk
  else (k <- imk_from_u8_unchecked (rui_repr o);; Ret (RErr k)).

Definition imk_eqb (a b : illegal_move_kind) : bool := imk_as_u8 a =? imk_as_u8 b.
Definition rui_eqb (a b : result_unit_imk) : bool := rui_repr a =? rui_repr b.
