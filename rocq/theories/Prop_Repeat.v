(** Property theorems C74: repetition and perpetual check *)
From Verif Require Import TRepeat.
From Verif Require Import SpecOrd SpecSfen MOrdHash LPiece Sample LSample LSampleR LSampleS LRefine LSampleX.

(** C74: the record that the library keeps suffices for the rule. However a [Position] was made and whatever was played on it by
    [make_move], playing the record again from the initial position tells how the game stands. *)
Theorem c74_status : forall P p0 s0 a0 xs, created P p0 s0 -> sees P s0 a0 -> few_pieces a0 -> Forall valid_call xs ->
  exists p bs, pos_run P p0 xs = Ret (p, bs) /\ moves p = accepted_moves (map call_move xs) bs /\
    lc_status (full_checker P) p = Ret (standing a0 (moves p)).
Proof. exact c74_status_pf. Qed.
Print Assumptions c74_status.
Example c74_status_ex : created Debug (arbitrary_position (set_up_by hunt)) (set_up_by hunt) /\
  sees Debug (set_up_by hunt) (abs (set_up_by hunt)) /\ few_pieces (abs (set_up_by hunt)) /\ Forall valid_call (map PMove hunted) /\
  match pos_run Debug (arbitrary_position (set_up_by hunt)) (map PMove hunted) with
  | Ret (p, bs) => lc_status (full_checker Debug) p = Ret PSWhiteWins /\ lc_status (rules_checker Debug) p = Ret PSInProgress /\ bs = repeat true 12
  | _ => False end /\
  (* the library lets the king jump; the record is then not that of a game *)
  match pos_run Debug (arbitrary_position (set_up_by hunt)) [PMove (rm 9 9 1 1 false)] with
  | Ret (p, bs) => lc_status (full_checker Debug) p = Ret PSInvalid /\ bs = [true]
  | _ => False end.
Proof.
  assert (R : reachable Debug (set_up_by hunt)) by (exists pp_empty, hunt, (repeat true 3); split; [now left|]; split; [repeat constructor; try discriminate; apply piece_of_valid|vm_compute; reflexivity]).
  split; [now constructor|]. split; [apply sees_abs, (reachable_wf Debug), R|].
  split; [intros k K; cbn [In hand_kinds] in K; repeat (destruct K as [<-|K]; [vm_compute; discriminate|]); destruct K|].
  split; [repeat constructor; try discriminate|]. split; vm_compute; repeat split.
Qed.

(** C74: played through the checker from any position, a list of moves meets with no error if and only if each is legal and made while the
    game goes on. Moves that meet with an error are not played; the record is always that of a fair game, and the status says how it
    stands. *)
Theorem c74_checked_game : forall P p0 s0 a0 ms, created P p0 s0 -> sees P s0 a0 -> few_pieces a0 -> Forall valid_move ms ->
  exists p rs, lc_play P (full_checker P) p0 ms = Ret (p, rs) /\ length rs = length ms /\
    (Forall (fun r => r = ROk) rs <-> fair_game a0 [] ms = true) /\
    moves p = accepted_moves ms (map is_ok rs) /\ fair_game a0 [] (moves p) = true /\
    sees P (inner p) (after_all a0 (moves p)) /\
    lc_status (full_checker P) p = Ret (verdict (after_all a0 (moves p)) (trail a0 [] (moves p))).
Proof. exact c74_checked_game_pf. Qed.
Print Assumptions c74_checked_game.
Example c74_checked_game_ex : created Debug (arbitrary_position (set_up_by hunt)) (set_up_by hunt) /\ sees Debug (set_up_by hunt) (abs (set_up_by hunt)) /\ few_pieces (abs (set_up_by hunt)) /\ Forall valid_move (hunted ++ [rm 4 5 5 5 false]) /\
  full_answers (arbitrary_position (set_up_by hunt)) (hunted ++ [rm 4 5 5 5 false]) = (repeat true 12 ++ [false], Some PSWhiteWins) /\
  fair_game (abs (set_up_by hunt)) [] hunted = true /\ fair_game (abs (set_up_by hunt)) [] (hunted ++ [rm 4 5 5 5 false]) = false /\
  (* without the rule of repetition the move would be fine *)
  legal_game (abs (set_up_by hunt)) (hunted ++ [rm 4 5 5 5 false]) = true.
Proof.
  split; [constructor; apply set_up_reachable, hunt_valid|]. split; [apply set_up_sees, hunt_valid|]. split; [intros k K; cbn [In hand_kinds] in K; repeat (destruct K as [<-|K]; [vm_compute; discriminate|]); destruct K|]. split; [repeat constructor; discriminate|].
  repeat (split; [vm_compute; reflexivity|]). vm_compute. reflexivity.
Qed.

(** C74: the rule spelt out: a position in which moves are left is in progress until its setting has occurred three times before; then it
    is lost for a player who gave check whenever the opponent was on turn since the first of these, unless both did, and otherwise drawn. *)
Theorem c74_rule : forall a past, status_of a = PSInProgress ->
  (verdict a past = PSInProgress <-> (length (filter (same_setting a) past) < 3)%nat) /\
  forall newer b older, past = newer ++ b :: older -> same_setting a b = true -> length (filter (same_setting a) newer) = 2%nat ->
    let check_at c x := a_side x = opponent c -> check (a_board x) (opponent c) = true in
    let always c := forall x, In x (a :: newer) -> check_at c x in
    (verdict a past = PSWhiteWins <-> always Black /\ ~ always White) /\
    (verdict a past = PSBlackWins <-> always White /\ ~ always Black) /\
    (verdict a past = PSDraw <-> (always Black <-> always White)).
Proof. exact c74_rule_pf. Qed.
Print Assumptions c74_rule.
Example c74_rule_ex :
  let a := after_all a_opening shuffles in let past := trail a_opening [] shuffles in
  status_of a = PSInProgress /\ length past = 12%nat /\ length (filter (same_setting a) past) = 3%nat /\ verdict a past = PSDraw /\
  verdict a (firstn 11 past) = PSInProgress /\
  (* the rook that gives check for ever loses *)
  let h := abs (set_up_by hunt) in
  verdict (after_all h hunted) (trail h [] hunted) = PSWhiteWins /\
  (* the draw and the loss are told by whether all of the moves in between gave check *)
  verdict (after_all h (hunting ++ hunting ++ quiet)) (trail h [] (hunting ++ hunting ++ quiet)) = PSDraw.
Proof. cbv zeta. repeat (split; [vm_compute; reflexivity|]). vm_compute. reflexivity. Qed.

(** C74: no fair game goes on for ever: there is a bound on the number of moves, the same for all positions to begin with. *)
Theorem c74_games_end : exists n, forall a ms, few_pieces a -> Forall valid_move ms -> fair_game a [] ms = true -> (length ms <= n)%nat.
Proof. exact c74_games_end_pf. Qed.
Print Assumptions c74_games_end.
Example c74_games_end_ex : few_pieces a_opening /\ Forall valid_move shuffles /\ fair_game a_opening [] shuffles = true /\
  fair_game a_opening [] (shuffles ++ shuffle) = false /\ legal_game a_opening (shuffles ++ shuffle) = true.
Proof.
  split; [intros k K; cbn [In hand_kinds] in K; repeat (destruct K as [<-|K]; [vm_compute; discriminate|]); destruct K|].
  split; [repeat constructor; try discriminate|]. repeat (split; [vm_compute; reflexivity|]). vm_compute. reflexivity.
Qed.

(** C74: the library's [==] and order do not find repetitions: after fewer than 65536 moves a position never equals what it was, even if
    all pieces are back, for the number of the move differs. *)
Theorem c74_equality : forall P s ms s', reachable P s -> Forall valid_move ms -> run_ops P s (map OpMove ms) = Ret (s', repeat true (length ms)) ->
  ms <> [] -> N.of_nat (length ms) < 65536 -> pp_eqb s s' = false /\ pp_cmp s s' <> Eq.
Proof. exact c74_equality_pf. Qed.
Print Assumptions c74_equality.
Example c74_equality_ex : reachable Debug the_start /\ Forall valid_move shuffle /\
  match run_ops Debug the_start (map OpMove shuffle) with
  | Ret (s, bs) => bs = repeat true (length shuffle) /\ same_setting (abs the_start) (abs s) = true /\ pp_eqb the_start s = false /\ pp_cmp the_start s = Lt
  | _ => False end.
Proof.
  split; [apply the_start_reachable|]. split; [repeat constructor; discriminate|].
  vm_compute. repeat split.
Qed.

(** C74: the SFEN text with the number of the move set to one tells settings apart, and nothing else. *)
Theorem c74_text : forall P s t a b, reachable P s -> reachable P t -> sees P s a -> sees P t b ->
  exists x y, setting_text P s = Ret x /\ setting_text P t = Ret y /\ (x = y <-> same_setting a b = true).
Proof. exact c74_text_pf. Qed.
Print Assumptions c74_text.
Example c74_text_ex : reachable Debug the_start /\ (forall s bs, run_ops Debug the_start (map OpMove shuffle) = Ret (s, bs) -> reachable Debug s) /\
  match run_ops Debug the_start (map OpMove shuffle) with
  | Ret (s, _) => setting_text Debug s = Ret (bytes "lnsgkgsnl/1r5b1/ppppppppp/9/9/9/PPPPPPPPP/1B5R1/LNSGKGSNL b - 1") /\
                  to_sfen_owned Debug s = Ret (bytes "lnsgkgsnl/1r5b1/ppppppppp/9/9/9/PPPPPPPPP/1B5R1/LNSGKGSNL b - 5")
  | _ => False end.
Proof.
  split; [apply the_start_reachable|]. split; [intros s bs E; exists the_start, (map OpMove shuffle), bs; split; [right; vm_compute; reflexivity|]; split; [repeat constructor; discriminate|exact E]|].
  vm_compute. repeat split.
Qed.
