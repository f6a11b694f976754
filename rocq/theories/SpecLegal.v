(** Specification for [LegalityChecker]: playing through a checker, and the promise an implementor makes. *)
From Verif Require Export MLegality SpecBase SpecBoard SpecPos.

(** Play a list of moves through a checker *)
Fixpoint lc_play (P : profile) (L : legality_checker) (p : position) (ms : list move) : res (position * list (result illegal_move_kind)) :=
  match ms with
  | [] => Ret (p, [])
  | m :: rest => '(p1, r) <- lc_make_move P L p m;; '(p2, rs) <- lc_play P L p1 rest;; Ret (p2, r :: rs)
  end.
Definition is_ok {E} (r : result E) : bool := match r with ROk => true | RErr _ => false end.
(** An implementor that never panics and lets only moves pass that make sense *)
Definition honest (P : profile) (L : legality_checker) : Prop :=
  forall p m, reachable P (inner p) -> valid_move m ->
  exists r, lc_is_legal L p m = Ret r /\ (r = ROk -> exists q, pos_make_move P p m = Ret (q, Some tt)).
