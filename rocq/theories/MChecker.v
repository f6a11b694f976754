(** Model of /repo/shogi_core/src/legality.rs:31-131 for implementors of [LegalityChecker] that keep a state behind [&self]
    (a cache, a counter, a log) and that may replace the provided methods by their own.

    [S] is the state of the implementor. A method takes the state and gives a new one; what is left of the state after a panic is not
    modelled. The methods get [&Position] and [&PartialPosition], which have no interior mutability, so that no method but
    [make_move], which gets [&mut Position], changes a position. *)
From Verif Require Export MLegality.

Definition sm (S A : Type) : Type := S -> res (S * A).

(** legality.rs:31-131 [trait LegalityChecker]: what an implementor writes. The fields [o_...] are the provided methods that it
    replaces; [None] leaves the provided one in place. *)
Record implementor (S : Type) := Implementor {
  i_status : position -> sm S position_status;                                      (* legality.rs:37 *)
  i_status_partial : partial_position -> sm S position_status;                      (* legality.rs:42 *)
  i_is_legal_partial : partial_position -> move -> sm S (result illegal_move_kind); (* legality.rs:74-75 *)
  i_is_legal_partial_lite : partial_position -> move -> sm S bool;                  (* legality.rs:80 *)
  i_all_legal_moves_partial : partial_position -> sm S (list move);                 (* legality.rs:100 *)
  i_normal_from_candidates : partial_position -> square -> sm S bitboard;           (* legality.rs:105 *)
  i_normal_to_candidates : partial_position -> square -> piece -> sm S bitboard;    (* legality.rs:110-115 *)
  i_drop_candidates : partial_position -> piece -> sm S bitboard;                   (* legality.rs:120 *)
  o_is_legal : option (position -> move -> sm S (result illegal_move_kind));        (* legality.rs:52 *)
  o_is_legal_lite : option (position -> move -> sm S bool);                         (* legality.rs:64 *)
  o_all_legal_moves : option (position -> sm S (list move));                        (* legality.rs:89 *)
  o_make_move : option (position -> move -> S -> res (S * position * result illegal_move_kind)) (* legality.rs:124 *)
}.
Arguments Implementor {S} _ _ _ _ _ _ _ _ _ _ _ _.
Arguments i_status {S} _ _ _.
Arguments i_status_partial {S} _ _ _.
Arguments i_is_legal_partial {S} _ _ _ _.
Arguments i_is_legal_partial_lite {S} _ _ _ _.
Arguments i_all_legal_moves_partial {S} _ _ _.
Arguments i_normal_from_candidates {S} _ _ _ _.
Arguments i_normal_to_candidates {S} _ _ _ _ _.
Arguments i_drop_candidates {S} _ _ _ _.
Arguments o_is_legal {S} _.
Arguments o_is_legal_lite {S} _.
Arguments o_all_legal_moves {S} _.
Arguments o_make_move {S} _.

(** legality.rs:52-57 [is_legal] *)
Definition i_is_legal {S} (I : implementor S) (p : position) (mv : move) : sm S (result illegal_move_kind) :=
  match o_is_legal I with
  | Some own => own p mv
  | None => fun s =>
      '(s, st) <- i_status I p s;;
      if negb (ps_eqb st PSInProgress) then Ret (s, RErr GameFinished)
      else i_is_legal_partial I (inner p) mv s
  end.
(** legality.rs:64-69 [is_legal_lite] *)
Definition i_is_legal_lite {S} (I : implementor S) (p : position) (mv : move) : sm S bool :=
  match o_is_legal_lite I with
  | Some own => own p mv
  | None => fun s =>
      '(s, st) <- i_status I p s;;
      if negb (ps_eqb st PSInProgress) then Ret (s, false)
      else i_is_legal_partial_lite I (inner p) mv s
  end.
(** legality.rs:89-94 [all_legal_moves] *)
Definition i_all_legal_moves {S} (I : implementor S) (p : position) : sm S (list move) :=
  match o_all_legal_moves I with
  | Some own => own p
  | None => fun s =>
      '(s, st) <- i_status I p s;;
      if negb (ps_eqb st PSInProgress) then Ret (s, [])
      else i_all_legal_moves_partial I (inner p) s
  end.
(** legality.rs:124-130 [make_move]: the new state, the final value of [*position] and the result *)
Definition i_make_move {S} (P : profile) (I : implementor S) (p : position) (mv : move) (s : S) : res (S * position * result illegal_move_kind) :=
  match o_make_move I with
  | Some own => own p mv s
  | None =>
      '(s, r) <- i_is_legal I p mv s;;
      match r with
      | RErr e => Ret (s, p, RErr e)
      | ROk =>
          '(p', o) <- pos_make_move P p mv;;
          debug_assert P (is_some o);;;
          Ret (s, p', ROk)
      end
  end.
