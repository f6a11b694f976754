(** Property theorems C45: LegalityChecker *)
From Verif Require Import TLegal.
From Verif Require Import LSample.

(** C45: when the game is over, no move is legal and nothing happens, for every implementor. *)
Theorem c45_finished : forall P L p m st, lc_status L p = Ret st -> st <> PSInProgress ->
  lc_is_legal L p m = Ret (RErr GameFinished) /\
  lc_is_legal_lite L p m = Ret false /\
  lc_all_legal_moves L p = Ret [] /\
  lc_make_move P L p m = Ret (p, RErr GameFinished).
Proof. exact c45_finished_pf. Qed.
Print Assumptions c45_finished.
Example c45_finished_ex : lc_status (referee Debug) (arbitrary_position pos1) = Ret PSDraw /\
  lc_make_move Debug (referee Debug) (arbitrary_position pos1) (nm 5 5 6 6 false) = Ret (arbitrary_position pos1, RErr GameFinished).
Proof. vm_compute; auto. Qed.

(** C45: while it is in progress, the implementor's partial versions decide, on [inner()]. *)
Theorem c45_in_progress : forall L p m, lc_status L p = Ret PSInProgress ->
  lc_is_legal L p m = lc_is_legal_partial L (inner p) m /\
  lc_is_legal_lite L p m = lc_is_legal_partial_lite L (inner p) m /\
  lc_all_legal_moves L p = lc_all_legal_moves_partial L (inner p).
Proof. exact c45_in_progress_pf. Qed.
Print Assumptions c45_in_progress.
Example c45_in_progress_ex : lc_status (referee Debug) (arbitrary_position the_startpos) = Ret PSInProgress /\
  lc_is_legal (referee Debug) (arbitrary_position the_startpos) (nm 7 7 7 6 false) = Ret ROk /\
  lc_is_legal (referee Debug) (arbitrary_position the_startpos) (nm 7 6 7 5 false) = Ret (RErr IncorrectMove).
Proof. vm_compute; auto. Qed.

(** C45: an implementor whose [status] or partial version panics makes the provided methods panic, and nothing else does. *)
Theorem c45_panics : forall L p m,
  (lc_is_legal L p m = Panic <->
     lc_status L p = Panic \/ (lc_status L p = Ret PSInProgress /\ lc_is_legal_partial L (inner p) m = Panic)) /\
  (lc_is_legal_lite L p m = Panic <->
     lc_status L p = Panic \/ (lc_status L p = Ret PSInProgress /\ lc_is_legal_partial_lite L (inner p) m = Panic)) /\
  (lc_all_legal_moves L p = Panic <->
     lc_status L p = Panic \/ (lc_status L p = Ret PSInProgress /\ lc_all_legal_moves_partial L (inner p) = Panic)).
Proof. exact c45_panics_pf. Qed.
Print Assumptions c45_panics.
Example c45_panics_ex : lc_is_legal (LegalityChecker (fun _ => Panic) (fun _ => Ret PSInProgress) (fun _ _ => Ret ROk) (fun _ _ => Ret true) (fun _ => Ret []) (fun _ _ => Ret bb_empty) (fun _ _ _ => Ret bb_empty) (fun _ _ => Ret bb_empty))
  (arbitrary_position the_startpos) (nm 7 7 7 6 false) = Panic.
Proof. reflexivity. Qed.

(** C45: [make_move] answers what [is_legal] answers; after an error the position is the old one. *)
Theorem c45_make_move_answer : forall P L p m p' r, lc_make_move P L p m = Ret (p', r) ->
  lc_is_legal L p m = Ret r /\ (r <> ROk -> p' = p).
Proof. exact c45_make_move_answer_pf. Qed.
Print Assumptions c45_make_move_answer.
Example c45_make_move_answer_ex : returns (lc_make_move Debug (referee Debug) (arbitrary_position the_startpos) (nm 7 7 7 6 false))
  (fun r => is_ok (snd r) && negb (pp_eqb (inner (fst r)) the_startpos)) = true.
Proof. vm_compute; reflexivity. Qed.

(** C45: if a legal move succeeds, as the implementor must guarantee, [make_move] answers as [is_legal] does and an Ok advances
    the position by exactly that move. *)
Theorem c45_make_move : forall P L p m r, reachable P (inner p) -> valid_move m -> lc_is_legal L p m = Ret r ->
  (r = ROk -> exists q, pos_make_move P p m = Ret (q, Some tt)) ->
  exists p', lc_make_move P L p m = Ret (p', r) /\
    match r with
    | ROk => initial_position p' = initial_position p /\ moves p' = moves p ++ [m] /\
        make_move P m (inner p) = Ret (inner p', Some tt) /\
        forall a, sees P (inner p) a -> exists a', sees P (inner p') a' /\ makes_sense a m /\ effect a m a'
    | RErr _ => p' = p
    end.
Proof. exact c45_make_move_pf. Qed.
Print Assumptions c45_make_move.
Example c45_make_move_ex : let p := arbitrary_position the_startpos in let m := nm 7 7 7 6 false in
  reachable Debug (inner p) /\ valid_move m /\ lc_is_legal (referee Debug) p m = Ret ROk /\ (exists q, pos_make_move Debug p m = Ret (q, Some tt)) /\
  returns (lc_make_move Debug (referee Debug) p m) (fun r => list_eqb move_eqb (moves (fst r)) [m]) = true.
Proof.
  split; [apply start_reachable|]. split; [repeat split; discriminate|]. split; [vm_compute; reflexivity|]. split; [eexists; vm_compute; reflexivity|].
  vm_compute; reflexivity.
Qed.

(** C45: what happens to an implementor that breaks its promise: a panic with debug assertions, a wrong Ok without. *)
Theorem c45_broken_promise : forall P L p m, lc_is_legal L p m = Ret ROk ->
  pos_make_move P p m = Ret (p, None) ->
  lc_make_move P L p m = if debug_assertions P then Panic else Ret (p, ROk).
Proof. exact c45_broken_promise_pf. Qed.
Print Assumptions c45_broken_promise.
Example c45_broken_promise_ex :
  let L := LegalityChecker (fun _ => Ret PSInProgress) (fun _ => Ret PSInProgress) (fun _ _ => Ret ROk) (fun _ _ => Ret true) (fun _ => Ret []) (fun _ _ => Ret bb_empty) (fun _ _ _ => Ret bb_empty) (fun _ _ => Ret bb_empty) in
  lc_is_legal L (arbitrary_position the_startpos) (nm 9 9 9 7 false) = Ret ROk /\
  pos_make_move Debug (arbitrary_position the_startpos) (nm 9 9 9 7 false) = Ret (arbitrary_position the_startpos, None) /\
  lc_make_move Debug L (arbitrary_position the_startpos) (nm 9 9 9 7 false) = Panic /\
  lc_make_move Release L (arbitrary_position the_startpos) (nm 9 9 9 7 false) = Ret (arbitrary_position the_startpos, ROk).
Proof. vm_compute; auto. Qed.

(** C45: a whole game played through an honest checker never panics; the record holds exactly the moves answered with Ok, and
    replaying them leads to the position reached. *)
Theorem c45_game : forall P L s0 ms, honest P L -> reachable P s0 -> Forall valid_move ms ->
  exists p rs, lc_play P L (arbitrary_position s0) ms = Ret (p, rs) /\ length rs = length ms /\
    initial_position p = s0 /\ moves p = accepted_moves ms (map is_ok rs) /\
    run_ops P s0 (map OpMove (moves p)) = Ret (inner p, repeat true (length (moves p))).
Proof. exact c45_game_pf. Qed.
Print Assumptions c45_game.
Example c45_game_ex : honest Debug (referee Debug) /\ reachable Debug the_startpos /\
  Forall valid_move [nm 7 7 7 6 false; nm 7 6 7 5 false; nm 3 3 3 4 false; nm 2 7 2 6 false; nm 8 3 8 4 false; nm 2 6 2 5 false] /\
  ('(p, rs) <- lc_play Debug (referee Debug) (arbitrary_position the_startpos)
     [nm 7 7 7 6 false; nm 7 6 7 5 false; nm 3 3 3 4 false; nm 2 7 2 6 false; nm 8 3 8 4 false; nm 2 6 2 5 false];;
   Ret (rs, length (moves p))) = Ret ([ROk; RErr IncorrectMove; ROk; ROk; ROk; RErr GameFinished], 4%nat).
Proof. split; [apply referee_honest|]. split; [apply start_reachable|]. split; [repeat constructor; discriminate|]. vm_compute; auto. Qed.
