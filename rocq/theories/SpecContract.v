(** The contract of [LegalityChecker] as its documentation states it (legality.rs:26-131), a client that relies on it, and two
    implementors. *)
From Verif Require Export SpecRepeat.

(** ** The contract *)
Definition says_legal (L : legality_checker) (s : partial_position) (m : move) : Prop := lc_is_legal_partial L s m = Ret ROk.
(** [ok] says which records the implementor is asked about. *)
Record keeps_contract (P : profile) (L : legality_checker) (ok : position -> Prop) : Prop := {
  (* every question has an answer *)
  k_status : forall p, ok p -> reachable P (inner p) /\ exists st, lc_status L p = Ret st;
  k_status_partial : forall s, reachable P s -> exists st, lc_status_partial L s = Ret st;
  k_answer : forall s m, reachable P s -> valid_move m -> exists r, lc_is_legal_partial L s m = Ret r;
  (* 39-42: a position alone never shows a repetition *)
  k_no_draw : forall s, reachable P s -> lc_status_partial L s <> Ret PSDraw;
  (* 72, 78, 98, 103, ...: if the position is not in progress, no move is legal *)
  k_progress : forall s m, reachable P s -> valid_move m -> says_legal L s m -> lc_status_partial L s = Ret PSInProgress;
  (* 73: a legal move succeeds *)
  k_succeeds : forall s m, reachable P s -> valid_move m -> says_legal L s m -> exists s', make_move P m s = Ret (s', Some tt);
  (* 76-80 *)
  k_lite : forall s m, reachable P s -> valid_move m -> exists b, lc_is_legal_partial_lite L s m = Ret b /\ (b = true <-> says_legal L s m);
  (* 95-100: all legal moves *)
  k_all : forall s, reachable P s -> exists l, lc_all_legal_moves_partial L s = Ret l /\ Forall valid_move l /\
    forall m, valid_move m -> (In m l <-> says_legal L s m);
  (* 101-105: all destinations of normal moves from a square *)
  k_from : forall s from, reachable P s -> valid_square from -> exists b, lc_normal_from_candidates L s from = Ret b /\ valid_bb b /\
    forall to, valid_square to -> (bb_contains P b to = Ret true <-> exists promote, says_legal L s (Normal from to promote));
  (* 106-115: all sources of normal moves of a piece to a square *)
  k_to : forall s to p, reachable P s -> valid_square to -> valid_piece p -> exists b, lc_normal_to_candidates L s to p = Ret b /\ valid_bb b /\
    forall from, valid_square from -> (bb_contains P b from = Ret true <->
      piece_at P s from = Ret (Some p) /\ exists promote, says_legal L s (Normal from to promote));
  (* 116-120: all destinations of drops of a piece *)
  k_drop : forall s p, reachable P s -> valid_piece p -> exists b, lc_drop_candidates L s p = Ret b /\ valid_bb b /\
    forall to, valid_square to -> (bb_contains P b to = Ret true <-> says_legal L s (Drop p to))
}.

(** ** A client *)
(** the squares of a bitboard by its iterator *)
Definition each (P : profile) (b : bitboard) : res (list square) :=
  r <- bb_collect P 82 b;; Ret (match r with Some (_, l) => l | None => [] end).
Fixpoint filter_res {A} (f : A -> res bool) (l : list A) : res (list A) :=
  match l with [] => Ret [] | x :: rest => b <- f x;; ys <- filter_res f rest;; Ret (if b : bool then x :: ys else ys) end.
(** generates the legal moves from the bitboards, without [all_legal_moves_partial] (which needs an allocator) *)
Definition generate (P : profile) (L : legality_checker) (s : partial_position) : res (list move) :=
  own <- player_bitboard P s (side_to_move s);;
  froms <- each P own;;
  normal <- map_res (fun from =>
    b <- lc_normal_from_candidates L s from;;
    tos <- each P b;;
    ls <- map_res (fun to => filter_res (lc_is_legal_partial_lite L s) [Normal from to false; Normal from to true]) tos;;
    Ret (concat ls)) froms;;
  drops <- map_res (fun k =>
    let p := piece_of k (side_to_move s) in
    b <- lc_drop_candidates L s p;;
    tos <- each P b;;
    Ret (map (Drop p) tos)) hand_kinds;;
  Ret (concat normal ++ concat drops).

(** ** Implementors *)
(** one that goes by a table of what is legal *)
Definition table_checker (P : profile) (full : position -> res position_status) (st : apos -> position_status)
  (f : apos -> move -> bool) (why : apos -> move -> illegal_move_kind) : legality_checker := LegalityChecker
  full
  (fun s => a <- look P s;; Ret (st a))
  (fun s m => a <- look P s;; Ret (if f a m then ROk else RErr (why a m)))
  (fun s m => a <- look P s;; Ret (f a m))
  (fun s => a <- look P s;; Ret (filter (f a) (candidates (a_side a))))
  (fun s from => a <- look P s;; collect_squares P (filter (fun to => f a (Normal from to false) || f a (Normal from to true)) squares))
  (fun s to p => a <- look P s;;
    collect_squares P (filter (fun from => match a_board a from with
                                           | Some x => piece_eqb (the_piece x) p and (f a (Normal from to false) || f a (Normal from to true))
                                           | None => false
                                           end) squares))
  (fun s p => a <- look P s;; collect_squares P (filter (fun to => f a (Drop p to)) squares)).
(** one that knows no rule: whatever [make_move] accepts is legal, and the game never ends *)
Definition lenient (P : profile) : legality_checker :=
  table_checker P (fun _ => Ret PSInProgress) (fun _ => PSInProgress) (fun a m => is_some (a_move a m)) (fun _ _ => IncorrectMove).
(** records made by the library from a position without too many pieces *)
Definition recorded (P : profile) (p : position) : Prop :=
  exists p0 s0 a0 xs bs, created P p0 s0 /\ sees P s0 a0 /\ few_pieces a0 /\ Forall valid_call xs /\ pos_run P p0 xs = Ret (p, bs).
