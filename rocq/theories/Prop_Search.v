(** Property theorems C88: programs that search with the library *)
From Verif Require Import TSearch.
From Verif Require Import LPiece LSample LSampleR LSampleS LRefine LSampleX LSampleSearch.

(** C88: the two checkers of the earlier properties go by the rules. *)
Theorem c88_checkers : forall P, by_the_rules P (rules_checker P) /\ by_the_rules P (full_checker P).
Proof. exact c88_checkers_pf. Qed.
Print Assumptions c88_checkers.
Example c88_checkers_ex : says_legal (rules_checker Debug) the_start (rm 7 7 7 6 false) /\ ~ says_legal (full_checker Debug) the_start (rm 7 7 7 5 false) /\
  (* another implementor does not *)
  ~ by_the_rules Debug (lenient Debug).
Proof.
  split; [vm_compute; reflexivity|]. split; [unfold says_legal; vm_compute; discriminate|]. intros [_ B].
  destruct (proj1 (B the_start _ (rm 9 9 1 5 false) the_start_reachable (reachable_sees _ _ the_start_reachable) ltac:(repeat split; discriminate))) as [_ X];
    [vm_compute; reflexivity|]. vm_compute in X. discriminate.
Qed.

(** C88: counting the games of [n] moves ("perft") with the library gives their number: from any position that safe calls reach and
    that is regular, in every build, as long as the number fits in 64 bits; if it does not, the sum panics or wraps, as additions do. *)
Theorem c88_perft : forall P L n s a, by_the_rules P L -> reachable P s -> sees P s a -> left_safe a -> few_pieces a ->
  exists games, NoDup games /\ (forall ms, In ms games <-> Forall valid_move ms /\ length ms = n /\ legal_game a ms = true) /\
    perft P L n s = sum_u64 P (N.of_nat (length games)).
Proof. exact c88_perft_pf. Qed.
Print Assumptions c88_perft.
Example c88_perft_ex : by_the_rules Debug (rules_checker Debug) /\ reachable Debug (set_up_by two_golds) /\
  sees Debug (set_up_by two_golds) (abs (set_up_by two_golds)) /\ left_safe (abs (set_up_by two_golds)) /\ few_pieces (abs (set_up_by two_golds)) /\
  (perft Debug (rules_checker Debug) 0 (set_up_by two_golds), perft Debug (rules_checker Debug) 1 (set_up_by two_golds),
   perft Debug (rules_checker Debug) 2 (set_up_by two_golds)) = (Ret 1, Ret 12, Ret 15) /\
  perft Release (full_checker Release) 1 the_start = Ret 30 /\
  (sum_u64 Debug 18446744073709551616, sum_u64 Release 18446744073709551617) = (Panic, Ret 1).
Proof.
  split; [apply c88_checkers_pf|]. split; [apply set_up_reachable, two_golds_valid|]. split; [apply set_up_sees, two_golds_valid|].
  split; [vm_compute; reflexivity|]. split; [apply two_golds_few|]. split; [vm_compute; reflexivity|]. split; vm_compute; reflexivity.
Qed.

(** C88: the solver is right. From any position that safe calls reach and that is regular, in every build, it answers, neither panics
    nor does anything undefined; it finds a move exactly if the player on turn can win by force in [n] moves, and the move is legal
    and wins whatever the replies are. *)
Theorem c88_solve : forall P L n s a, by_the_rules P L -> reachable P s -> sees P s a -> left_safe a -> few_pieces a ->
  exists o, solve P L n s = Ret o /\ (o <> None <-> can_win n a) /\
    forall m, o = Some m -> legal_move a m /\ forall r, legal_move (after a m) r -> can_win (pred n) (after (after a m) r).
Proof. exact c88_solve_pf. Qed.
Print Assumptions c88_solve.
Example c88_solve_ex : by_the_rules Debug (rules_checker Debug) /\ reachable Debug (set_up_by two_golds) /\
  sees Debug (set_up_by two_golds) (abs (set_up_by two_golds)) /\ left_safe (abs (set_up_by two_golds)) /\ few_pieces (abs (set_up_by two_golds)) /\
  (* a gold in front of the king mates at once; two golds need a quiet move first *)
  (solve Debug (rules_checker Debug) 1 (set_up_by gold_mate), solve Debug (rules_checker Debug) 1 (set_up_by two_golds),
   solve Debug (rules_checker Debug) 2 (set_up_by two_golds)) = (Ret (Some (rd Gold 1 2)), Ret None, Ret (Some (rm 1 4 1 3 false))).
Proof.
  split; [apply c88_checkers_pf|]. split; [apply set_up_reachable, two_golds_valid|]. split; [apply set_up_sees, two_golds_valid|].
  split; [vm_compute; reflexivity|]. split; [apply two_golds_few|]. vm_compute. reflexivity.
Qed.

(** C88: who plays what the solver finds wins against every opponent, in at most [n] moves: the moves played are a legal game that the
    library accepts, and in the last position the status is that the player has won. *)
Theorem c88_duel : forall P L opp n s a, by_the_rules P L -> (forall s l, l <> [] -> In (opp s l) l) ->
  reachable P s -> sees P s a -> left_safe a -> few_pieces a -> can_win n a ->
  exists t ms, duel P L opp n s = Ret (Some t) /\ (length ms <= 2 * n - 1)%nat /\ Forall valid_move ms /\ legal_game a ms = true /\
    run_ops P s (map OpMove ms) = Ret (t, repeat true (length ms)) /\ sees P t (after_all a ms) /\ no_move (after_all a ms) /\
    rules_status P t = Ret (match a_side a with Black => PSBlackWins | White => PSWhiteWins end).
Proof. exact c88_duel_pf. Qed.
Print Assumptions c88_duel.
Example c88_duel_ex : (forall (s : partial_position) (l : list move), l <> [] -> In (first_reply s l) l) /\
  can_win 1 (abs (set_up_by gold_mate)) /\ can_win 2 (abs (set_up_by two_golds)) /\
  (o <- duel Debug (rules_checker Debug) first_reply 2 (set_up_by two_golds);; Ret (option_map (fun t => (ply t, rules_status Debug t)) o)) =
  Ret (Some (4, Ret PSBlackWins)).
Proof.
  split; [intros s [|m l] H; [congruence|now left]|].
  assert (W : forall n os, Forall valid_op os -> left_safe (abs (set_up_by os)) -> few_pieces (abs (set_up_by os)) ->
    (exists m, solve Debug (rules_checker Debug) n (set_up_by os) = Ret (Some m)) -> can_win n (abs (set_up_by os))).
  { intros n os V Ls F (m & E). destruct (c88_solve_pf Debug (rules_checker Debug) n (set_up_by os) _ (proj1 (c88_checkers_pf Debug)) (set_up_reachable os V) (set_up_sees os V) Ls F) as (o & E' & I & _).
    rewrite E in E'. injection E' as <-. apply I. discriminate. }
  split; [|split].
  - apply W; [exact gold_mate_valid|vm_compute; reflexivity|exact gold_mate_few|]. eexists. vm_compute. reflexivity.
  - apply W; [exact two_golds_valid|vm_compute; reflexivity|exact two_golds_few|]. eexists. vm_compute. reflexivity.
  - vm_compute. reflexivity.
Qed.

(** C88: never do both players win: whoever can win by force in some number of moves is not lost, that is, not every move lets the opponent
    win by force. More moves never hurt. *)
Theorem c88_sound :
  (forall n k a, (n <= k)%nat -> can_win n a -> can_win k a) /\
  (forall n k a, can_win n a -> ~ forall m, legal_move a m -> can_win k (after a m)).
Proof. exact c88_sound_pf. Qed.
Print Assumptions c88_sound.
Example c88_sound_ex : (* White, in front of the gold, is lost: Black can win, White cannot *)
  can_win 1 (abs (set_up_by gold_mate)) /\ ~ can_win 1 (abs (set_up_by two_golds)) /\ can_win 2 (abs (set_up_by two_golds)).
Proof.
  assert (W : forall n os, Forall valid_op os -> left_safe (abs (set_up_by os)) -> few_pieces (abs (set_up_by os)) ->
    forall o, solve Debug (rules_checker Debug) n (set_up_by os) = Ret o -> (o <> None <-> can_win n (abs (set_up_by os)))).
  { intros n os V Ls F o E. destruct (c88_solve_pf Debug (rules_checker Debug) n (set_up_by os) _ (proj1 (c88_checkers_pf Debug)) (set_up_reachable os V) (set_up_sees os V) Ls F) as (o' & E' & I & _).
    rewrite E in E'. injection E' as <-. exact I. }
  split; [|split].
  - apply (W 1%nat gold_mate gold_mate_valid ltac:(vm_compute; reflexivity) gold_mate_few _ ltac:(vm_compute; reflexivity)). discriminate.
  - intros H. apply (W 1%nat two_golds two_golds_valid ltac:(vm_compute; reflexivity) two_golds_few None ltac:(vm_compute; reflexivity)) in H. congruence.
  - apply (W 2%nat two_golds two_golds_valid ltac:(vm_compute; reflexivity) two_golds_few _ ltac:(vm_compute; reflexivity)). discriminate.
Qed.
