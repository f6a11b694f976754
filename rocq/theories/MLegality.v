(** Model of /repo/shogi_core/src/legality.rs *)
From Verif Require Export MPosition.

(** legality.rs:9-22 [enum PositionStatus] *)
Inductive position_status := PSBlackWins | PSWhiteWins | PSDraw | PSInProgress | PSInvalid.
(** legality.rs:13-21: discriminants *)
Definition ps_as_u8 (s : position_status) : N :=
  match s with PSBlackWins => 1 | PSWhiteWins => 2 | PSDraw => 3 | PSInProgress => 4 | PSInvalid => 5 end.
(** derived [PartialEq] (legality.rs:10) *)
Definition ps_eqb (a b : position_status) : bool := ps_as_u8 a =? ps_as_u8 b.

(** legality.rs:31-131 [trait LegalityChecker]: the required methods. An implementor is an arbitrary
    value of this type; the methods are functions of their arguments (implementors with interior
    mutability and with own provided methods are in MChecker.v) and may panic. *)
Record legality_checker := LegalityChecker {
  lc_status : position -> res position_status;                        (* legality.rs:37 *)
  lc_status_partial : partial_position -> res position_status;        (* legality.rs:42 *)
  lc_is_legal_partial : partial_position -> move -> res (result illegal_move_kind);  (* 74-75 *)
  lc_is_legal_partial_lite : partial_position -> move -> res bool;    (* legality.rs:80 *)
  lc_all_legal_moves_partial : partial_position -> res (list move);   (* legality.rs:100 *)
  lc_normal_from_candidates : partial_position -> square -> res bitboard;           (* legality.rs:105 *)
  lc_normal_to_candidates : partial_position -> square -> piece -> res bitboard;    (* 110-115 *)
  lc_drop_candidates : partial_position -> piece -> res bitboard      (* legality.rs:120 *)
}.

(** legality.rs:52-57 [is_legal] *)
Definition lc_is_legal (L : legality_checker) (p : position) (mv : move) : res (result illegal_move_kind) :=
  st <- lc_status L p;;
  if negb (ps_eqb st PSInProgress) then Ret (RErr GameFinished)
  else lc_is_legal_partial L (inner p) mv.

(** legality.rs:64-69 [is_legal_lite] *)
Definition lc_is_legal_lite (L : legality_checker) (p : position) (mv : move) : res bool :=
  st <- lc_status L p;;
  if negb (ps_eqb st PSInProgress) then Ret false
  else lc_is_legal_partial_lite L (inner p) mv.

(** legality.rs:89-94 [all_legal_moves] *)
Definition lc_all_legal_moves (L : legality_checker) (p : position) : res (list move) :=
  st <- lc_status L p;;
  if negb (ps_eqb st PSInProgress) then Ret []
  else lc_all_legal_moves_partial L (inner p).

(** legality.rs:124-130 [make_move]: final value of [*position] and the result *)
Definition lc_make_move (P : profile) (L : legality_checker) (p : position) (mv : move)
  : res (position * result illegal_move_kind) :=
  r <- lc_is_legal L p mv;;
  match r with
  | RErr e => Ret (p, RErr e)
  | ROk =>
      '(p', o) <- pos_make_move P p mv;;
      debug_assert P (is_some o);;;
      Ret (p', ROk)
  end.
