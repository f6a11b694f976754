(** Repetition ("sennichite") and perpetual check: a rule that looks at all positions of a game and not at the last alone. The library
    keeps the record of the moves and leaves the rule to implementors of [LegalityChecker] ([status], legality.rs:33-37). *)
From Verif Require Export SpecRules.

(** ** Settings *)
(** what a repetition repeats: the board, the hands and the player to move; the number of the move and the last move do not count *)
Definition same_content (x y : option (piece_kind * color)) : bool :=
  match x, y with
  | Some (k, c), Some (l, d) => same_kind k l && same_color c d
  | None, None => true
  | _, _ => false
  end.
Definition same_setting (a b : apos) : bool :=
  same_color (a_side a) (a_side b) and
  forallb (fun s => same_content (a_board a s) (a_board b s)) squares and
  forallb (fun c => forallb (fun k => a_hand a c k =? a_hand b c k) hand_kinds) [Black; White].

(** ** The rule *)
(** the earlier positions, the last first, back to the [n]-th that shows the same setting *)
Fixpoint since (a : apos) (n : nat) (past : list apos) : option (list apos) :=
  match n with
  | O => Some []
  | S n' => match past with
            | [] => None
            | b :: rest => option_map (cons b) (since a (if same_setting a b then n' else n) rest)
            end
  end.
(** whenever the opponent of [c] was on turn, they were in check *)
Definition always_checked_by (c : color) (l : list apos) : bool :=
  forallb (fun b => if same_color (a_side b) c then true else check (a_board b) (a_side b)) l.
(** A setting that occurs for the fourth time is a draw; a player who gave check all the time loses. *)
Definition verdict (a : apos) (past : list apos) : position_status :=
  match status_of a with
  | PSInProgress =>
      match since a 3 past with
      | None => PSInProgress
      | Some l =>
          match always_checked_by Black (a :: l), always_checked_by White (a :: l) with
          | true, false => PSWhiteWins
          | false, true => PSBlackWins
          | _, _ => PSDraw
          end
      end
  | st => st
  end.
(** every move is legal and made while the game goes on *)
Fixpoint fair_game (a : apos) (past : list apos) (ms : list move) : bool :=
  match ms with
  | [] => true
  | m :: rest => ps_eqb (verdict a past) PSInProgress and legal a m and fair_game (after a m) (a :: past) rest
  end.
(** the positions before each move, the last first *)
Fixpoint trail (a : apos) (past : list apos) (ms : list move) : list apos :=
  match ms with [] => past | m :: rest => trail (after a m) (a :: past) rest end.
(** how a game stands *)
Definition standing (a : apos) (ms : list move) : position_status :=
  if fair_game a [] ms then verdict (after_all a ms) (trail a [] ms) else PSInvalid.
(** no hand can overflow, whatever is taken *)
Definition few_pieces (a : apos) : Prop :=
  forall k, In k hand_kinds -> on_board_count a k + a_hand a Black k + a_hand a White k <= 254.

(** ** An implementor *)
(** It plays the record again from the initial position and looks at every position. *)
Fixpoint replay (P : profile) (s : partial_position) (past : list apos) (ms : list move) : res position_status :=
  a <- look P s;;
  match ms with
  | [] => Ret (verdict a past)
  | m :: rest =>
      if ps_eqb (verdict a past) PSInProgress and legal a m then '(s', _) <- make_move P m s;; replay P s' (a :: past) rest
      else Ret PSInvalid
  end.
Definition full_status (P : profile) (p : position) : res position_status := replay P (initial_position p) [] (moves p).
Definition full_checker (P : profile) : legality_checker :=
  let L := rules_checker P in
  LegalityChecker (full_status P) (lc_status_partial L) (lc_is_legal_partial L) (lc_is_legal_partial_lite L) (lc_all_legal_moves_partial L)
    (lc_normal_from_candidates L) (lc_normal_to_candidates L) (lc_drop_candidates L).

(** A text that tells settings apart: SFEN with the number of the move set to one *)
Definition setting_text (P : profile) (s : partial_position) : res (list N) := to_sfen_owned P (fst (ply_set s 1)).
