(** Property theorems C89: programs that search in one position and take moves back *)
From Verif Require Import TInPlace.
From Verif Require Import LPiece LSample LSampleR LSampleS LRefine LSampleX LSampleSearch TSearch TRules.

(** C89: a move that was made in a regular position is taken back by editing, even if in between other moves were made and taken back:
    all that remains is another last move. *)
Theorem c89_taken_back : forall P s a m, reachable P s -> sees P s a -> left_safe a -> few_pieces a -> kings_known a -> a_ply a <> 0 -> legal_move a m ->
  exists os t, undo_list P s m = Ret os /\ forallb is_edit os = true /\ make_move P m s = Ret (t, Some tt) /\ sees P t (after a m) /\
    forall u x, reachable P u -> sees P u (with_last (after a m) x) ->
      exists v, run_ops P u os = Ret (v, repeat true (length os)) /\ reachable P v /\ sees P v (with_last a x).
Proof. exact c89_taken_back_pf. Qed.
Print Assumptions c89_taken_back.
Example c89_taken_back_ex : reachable Debug (set_up_by two_golds) /\ sees Debug (set_up_by two_golds) (abs (set_up_by two_golds)) /\
  left_safe (abs (set_up_by two_golds)) /\ few_pieces (abs (set_up_by two_golds)) /\ kings_known (abs (set_up_by two_golds)) /\
  a_ply (abs (set_up_by two_golds)) <> 0 /\ legal_move (abs (set_up_by two_golds)) (rm 1 4 1 3 false) /\
  (os <- undo_list Debug (set_up_by two_golds) (rm 1 4 1 3 false);; t <- go Debug (set_up_by two_golds) (rm 1 4 1 3 false);;
   '(u, bs) <- run_ops Debug t os;; x <- to_sfen_owned Debug t;; y <- to_sfen_owned Debug u;; Ret (bs, x, y)) =
  Ret (repeat true 5, bytes "8k/9/7GG/9/9/9/9/9/K8 w - 2", bytes "8k/9/7G1/8G/9/9/9/9/K8 b - 1").
Proof.
  split; [apply set_up_reachable, two_golds_valid|]. split; [apply set_up_sees, two_golds_valid|]. split; [vm_compute; reflexivity|].
  split; [apply two_golds_few|]. split; [apply two_golds_known|]. split; [vm_compute; discriminate|]. split; [split; [repeat split; discriminate|vm_compute; reflexivity]|].
  vm_compute. reflexivity.
Qed.

(** C89: searching in place answers as searching with clones does, in every build, and leaves the position as it was but for the last
    move, if [king_position] names the kings and the plies stay below 65536. *)
Theorem c89_solve : forall P L n s a, by_the_rules P L -> reachable P s -> sees P s a -> left_safe a -> few_pieces a -> kings_known a ->
  a_ply a <> 0 -> a_ply a + 2 * N.of_nat n < 65536 ->
  exists o t x, solve P L n s = Ret o /\ solve_in P L n s = Ret (t, o) /\ reachable P t /\ sees P t (with_last a x).
Proof. exact c89_solve_pf. Qed.
Print Assumptions c89_solve.
Example c89_solve_ex : by_the_rules Debug (rules_checker Debug) /\ reachable Debug (set_up_by two_golds) /\
  sees Debug (set_up_by two_golds) (abs (set_up_by two_golds)) /\ left_safe (abs (set_up_by two_golds)) /\ few_pieces (abs (set_up_by two_golds)) /\
  kings_known (abs (set_up_by two_golds)) /\ a_ply (abs (set_up_by two_golds)) = 1 /\
  ('(t, o) <- solve_in Debug (rules_checker Debug) 2 (set_up_by two_golds);; x <- to_sfen_owned Debug t;; Ret (o, x)) =
  Ret (Some (rm 1 4 1 3 false), bytes "8k/9/7G1/8G/9/9/9/9/K8 b - 1") /\
  (* the plies must stay below 65536: no edit sets the ply to 0 *)
  (solve Debug (rules_checker Debug) 1 (set_up_by (two_golds ++ [OpPly 65535])), solve_in Debug (rules_checker Debug) 1 (set_up_by (two_golds ++ [OpPly 65535]))) =
  (Ret None, Panic).
Proof.
  split; [apply c88_checkers_pf|]. split; [apply set_up_reachable, two_golds_valid|]. split; [apply set_up_sees, two_golds_valid|].
  split; [vm_compute; reflexivity|]. split; [apply two_golds_few|]. split; [apply two_golds_known|]. split; [vm_compute; reflexivity|].
  split; vm_compute; reflexivity.
Qed.

(** C89: counting in place as well; if the count does not fit, both panic or both wrap. *)
Theorem c89_perft : forall P L n s a, by_the_rules P L -> reachable P s -> sees P s a -> left_safe a -> few_pieces a -> kings_known a ->
  a_ply a <> 0 -> a_ply a + N.of_nat n < 65536 ->
  exists t x, perft_in P L n s = (k <- perft P L n s;; Ret (t, k)) /\ reachable P t /\ sees P t (with_last a x).
Proof. exact c89_perft_pf. Qed.
Print Assumptions c89_perft.
Example c89_perft_ex : by_the_rules Debug (rules_checker Debug) /\ reachable Debug (set_up_by two_golds) /\
  sees Debug (set_up_by two_golds) (abs (set_up_by two_golds)) /\ left_safe (abs (set_up_by two_golds)) /\ few_pieces (abs (set_up_by two_golds)) /\
  kings_known (abs (set_up_by two_golds)) /\
  ('(t, k) <- perft_in Debug (rules_checker Debug) 2 (set_up_by two_golds);; x <- to_sfen_owned Debug t;; Ret (k, x)) =
  Ret (15, bytes "8k/9/7G1/8G/9/9/9/9/K8 b - 1").
Proof.
  split; [apply c88_checkers_pf|]. split; [apply set_up_reachable, two_golds_valid|]. split; [apply set_up_sees, two_golds_valid|].
  split; [vm_compute; reflexivity|]. split; [apply two_golds_few|]. split; [apply two_golds_known|]. vm_compute. reflexivity.
Qed.

(** C89: in play [king_position] names the kings. *)
Theorem c89_in_play : forall P s a, played P s -> sees P s a -> kings_known a.
Proof. exact c89_in_play_pf. Qed.
Print Assumptions c89_in_play.
Example c89_in_play_ex : (forall P s, pp_startpos P = Ret s -> played P s /\ sees P s a_opening) /\
  (* a king put by an edit and moved away by another is not where king_position says *)
  let s := set_up_by [at_ 5 5 King Black; at_ 6 6 King Black; OpPieceSet (square_at 6 6) None] in
  ~ kings_known (abs s) /\ (king_position Debug s Black, piece_at Debug s (square_at 5 5)) = (Ret (Some (square_at 6 6)), Ret (Some (piece_of King Black))).
Proof.
  split; [intros P s; apply opening_played|]. cbv zeta. split; [|vm_compute; reflexivity]. intros K.
  assert (V : valid_square (square_at 5 5)) by (split; discriminate). specialize (K (square_at 5 5) Black V). vm_compute in K. specialize (K eq_refl). discriminate.
Qed.
