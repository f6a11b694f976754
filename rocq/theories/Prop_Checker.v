(** Property theorems C81: LegalityChecker implementors with a state *)
From Verif Require Import TChecker.
From Verif Require Import LSample LSampleK.

(** C81: the provided methods ask for the status first, with the state they were given, and go on with the state it left; a finished
    game makes no move legal, whatever the other methods would say. *)
Theorem c81_status_first : forall S (P : profile) (I : implementor S) p m s s1 st, replaces_nothing I -> i_status I p s = Ret (s1, st) ->
  if ps_eqb st PSInProgress then
    i_is_legal I p m s = i_is_legal_partial I (inner p) m s1 /\
    i_is_legal_lite I p m s = i_is_legal_partial_lite I (inner p) m s1 /\
    i_all_legal_moves I p s = i_all_legal_moves_partial I (inner p) s1
  else
    i_is_legal I p m s = Ret (s1, RErr GameFinished) /\
    i_is_legal_lite I p m s = Ret (s1, false) /\
    i_all_legal_moves I p s = Ret (s1, []) /\
    i_make_move P I p m s = Ret (s1, p, RErr GameFinished).
Proof. exact c81_status_first_pf. Qed.
Print Assumptions c81_status_first.
Example c81_status_first_ex : replaces_nothing (remembering Debug) /\
  i_status (remembering Debug) (arbitrary_position the_startpos) [] = Ret ([(1, PSInProgress)], PSInProgress) /\
  i_is_legal (remembering Debug) (arbitrary_position the_startpos) (nm 7 7 7 6 false) [] = Ret ([(1, PSInProgress)], ROk) /\
  i_status (remembering Debug) (arbitrary_position pos1) [] = Ret ([(pp_ply pos1, PSDraw)], PSDraw) /\
  i_is_legal (remembering Debug) (arbitrary_position pos1) (nm 7 7 7 6 false) [] = Ret ([(pp_ply pos1, PSDraw)], RErr GameFinished).
Proof. split; [repeat split|]. vm_compute. auto. Qed.

(** C81: [make_move] left in place asks [is_legal] once, leaves the state as that call left it, gives that answer, and changes the
    position only after an Ok. An own [is_legal] is the one that is asked. *)
Theorem c81_make_move_answer : forall S P (I : implementor S) p m s s' p' r, o_make_move I = None -> i_make_move P I p m s = Ret (s', p', r) ->
  i_is_legal I p m s = Ret (s', r) /\ (r <> ROk -> p' = p) /\ (r = ROk -> exists o, pos_make_move P p m = Ret (p', o) /\ (debug_assertions P = true -> o = Some tt)).
Proof. exact c81_make_move_answer_pf. Qed.
Print Assumptions c81_make_move_answer.
Example c81_make_move_answer_ex : o_make_move (remembering Debug) = None /\
  (let p := arbitrary_position the_startpos in
   '(s, q, r) <- i_make_move Debug (remembering Debug) p (nm 7 7 7 6 false) [];;
   '(s', q', r') <- i_make_move Debug (remembering Debug) q (nm 7 6 7 5 false) s;;
   Ret (s, moves q, r, s', moves q', r')) =
  Ret ([(1, PSInProgress)], [nm 7 7 7 6 false], ROk, [(2, PSInProgress); (1, PSInProgress)], [nm 7 7 7 6 false], RErr IncorrectMove).
Proof. split; [reflexivity|]. vm_compute. reflexivity. Qed.

(** C81: all other calls leave the position alone. *)
Theorem c81_queries : forall S P (I : implementor S) q p s s' p' a, (forall m, q <> LMake m) -> ask P I q p s = Ret (s', p', a) -> p' = p.
Proof. exact c81_queries_pf. Qed.
Print Assumptions c81_queries.
Example c81_queries_ex : (forall m, LIsLegal (nm 7 7 7 6 false) <> LMake m) /\
  ask Debug (remembering Debug) (LIsLegal (nm 7 7 7 6 false)) (arbitrary_position the_startpos) [] =
  Ret ([(1, PSInProgress)], arbitrary_position the_startpos, AResult ROk).
Proof. split; [discriminate|]. vm_compute. reflexivity. Qed.

(** C81: an implementor that calls a move legal that cannot be made: a panic with debug assertions, a wrong Ok without. *)
Theorem c81_broken_promise : forall S P (I : implementor S) p m s s', o_make_move I = None -> i_is_legal I p m s = Ret (s', ROk) ->
  pos_make_move P p m = Ret (p, None) ->
  i_make_move P I p m s = if debug_assertions P then Panic else Ret (s', p, ROk).
Proof. exact c81_broken_promise_pf. Qed.
Print Assumptions c81_broken_promise.
Example c81_broken_promise_ex :
  let I := Implementor (fun _ n => Ret (n + 1, PSInProgress)) (fun _ n => Ret (n, PSInProgress)) (fun _ _ n => Ret (n, ROk)) (fun _ _ n => Ret (n, true))
    (fun _ n => Ret (n, [])) (fun _ _ n => Ret (n, bb_empty)) (fun _ _ _ n => Ret (n, bb_empty)) (fun _ _ n => Ret (n, bb_empty)) None None None None in
  o_make_move I = None /\ i_is_legal I (arbitrary_position the_startpos) (nm 9 9 9 7 false) 0 = Ret (1, ROk) /\
  pos_make_move Debug (arbitrary_position the_startpos) (nm 9 9 9 7 false) = Ret (arbitrary_position the_startpos, None) /\
  i_make_move Debug I (arbitrary_position the_startpos) (nm 9 9 9 7 false) 0 = Panic /\
  i_make_move Release I (arbitrary_position the_startpos) (nm 9 9 9 7 false) 0 = Ret (1, arbitrary_position the_startpos, ROk).
Proof. vm_compute. auto. Qed.

(** C81: a provided method that is replaced is replaced for good: nothing is asked before it, and the [make_move] that is left in place
    asks the own [is_legal]. *)
Theorem c81_own_methods : forall S P (I : implementor S) p m s,
  (forall own, o_is_legal I = Some own -> i_is_legal I p m s = own p m s /\
     (o_make_move I = None ->
      match own p m s with
      | Ret (s', RErr e) => i_make_move P I p m s = Ret (s', p, RErr e)
      | Ret (s', ROk) => forall p', pos_make_move P p m = Ret (p', Some tt) -> i_make_move P I p m s = Ret (s', p', ROk)
      | Panic => i_make_move P I p m s = Panic
      | UB => i_make_move P I p m s = UB
      end)) /\
  (forall own, o_is_legal_lite I = Some own -> i_is_legal_lite I p m s = own p m s) /\
  (forall own, o_all_legal_moves I = Some own -> i_all_legal_moves I p s = own p s) /\
  (forall own, o_make_move I = Some own -> i_make_move P I p m s = own p m s).
Proof. exact c81_own_methods_pf. Qed.
Print Assumptions c81_own_methods.
Example c81_own_methods_ex :
  let own := fun (p : position) (m : move) (n : N) => Ret (n + 10, if n =? 0 then ROk else RErr TwoPawns) in
  let I := Implementor (fun _ n => Ret (n + 1, PSDraw)) (fun _ n => Ret (n, PSInProgress)) (fun _ _ n => Ret (n, RErr IncorrectMove)) (fun _ _ n => Ret (n, true))
    (fun _ n => Ret (n, [])) (fun _ _ n => Ret (n, bb_empty)) (fun _ _ _ n => Ret (n, bb_empty)) (fun _ _ n => Ret (n, bb_empty)) (Some own) None None None in
  o_is_legal I = Some own /\ o_make_move I = None /\ i_is_legal I (arbitrary_position the_startpos) (nm 7 7 7 6 false) 0 = Ret (10, ROk) /\
  ('(n, p, r) <- i_make_move Debug I (arbitrary_position the_startpos) (nm 7 7 7 6 false) 0;; Ret (n, moves p, r)) = Ret (10, [nm 7 7 7 6 false], ROk) /\
  i_make_move Debug I (arbitrary_position the_startpos) (nm 7 7 7 6 false) 5 = Ret (15, arbitrary_position the_startpos, RErr TwoPawns).
Proof. split; [reflexivity|]. split; [reflexivity|]. vm_compute. auto. Qed.

(** C81: any calls, in any order, on an implementor that answers and keeps its promise: no panic; the initial position stays; the
    record holds exactly the moves that [make_move] answered with Ok, and replaying them leads to the position reached. *)
Theorem c81_session : forall S P (I : implementor S) s0 qs s, i_answers P I -> i_honest P I -> o_make_move I = None ->
  reachable P s0 -> Forall valid_lq qs ->
  exists s' p l, session P I qs (arbitrary_position s0) s = Ret (s', p, l) /\ length l = length qs /\
    initial_position p = s0 /\ moves p = made qs l /\
    run_ops P s0 (map OpMove (moves p)) = Ret (inner p, repeat true (length (moves p))).
Proof. exact c81_session_pf. Qed.
Print Assumptions c81_session.
Example c81_session_ex : i_answers Debug (remembering Debug) /\ i_honest Debug (remembering Debug) /\ o_make_move (remembering Debug) = None /\
  reachable Debug the_startpos /\ Forall valid_lq the_moves /\
  ('(s, p, l) <- session Debug (remembering Debug) the_moves (arbitrary_position the_startpos) [];; Ret (s, l, moves p)) =
  Ret ([(5, PSDraw); (4, PSInProgress); (3, PSInProgress); (2, PSInProgress); (1, PSInProgress)],
       [AResult ROk; AResult ROk; AStatus PSInProgress; AResult (RErr IncorrectMove); AResult ROk; ABoard bb_empty; AResult ROk; AFlag true; AResult ROk;
        AResult (RErr GameFinished); AMoves []],
       [nm 7 7 7 6 false; nm 3 3 3 4 false; nm 2 7 2 6 false; nm 8 3 8 4 false]).
Proof.
  split; [apply remembering_answers|]. split; [apply remembering_answers|]. split; [reflexivity|]. split; [apply start_reachable|].
  split; [apply the_moves_valid|]. vm_compute. reflexivity.
Qed.

(** C81: the provided methods call the implementor exactly as follows: [status] once, and then, only while the game is in progress,
    the method for [inner()] once; [make_move] makes the calls of [is_legal], no more. Nothing else is called. *)
Theorem c81_calls : forall S P (I : implementor S) q p s l s' p' a, replaces_nothing I -> ask P I q p s = Ret (s', p', a) ->
  exists st, ask P (watched I) q p (s, l) = Ret ((s', l ++ calls_of q p st), p', a) /\
    (In (CStatus p) (calls_of q p st) -> exists s1, i_status I p s = Ret (s1, st)).
Proof. exact c81_calls_pf. Qed.
Print Assumptions c81_calls.
Example c81_calls_ex : replaces_nothing (remembering Debug) /\ let p := arbitrary_position the_startpos in let m := nm 7 7 7 6 false in
  (exists q, ask Debug (remembering Debug) (LMake m) p [] = Ret ([(1, PSInProgress)], q, AResult ROk)) /\
  (exists q, ask Debug (watched (remembering Debug)) (LMake m) p ([], []) = Ret ([(1, PSInProgress)], [CStatus p; CLegal (inner p) m], q, AResult ROk)) /\
  ask Debug (watched (remembering Debug)) (LMake m) (arbitrary_position pos1) ([], []) =
    Ret ([(pp_ply pos1, PSDraw)], [CStatus (arbitrary_position pos1)], arbitrary_position pos1, AResult (RErr GameFinished)).
Proof. split; [repeat split|]. split; [eexists; vm_compute; reflexivity|]. split; [eexists; vm_compute; reflexivity|]. vm_compute. reflexivity. Qed.

(** C81: an implementor whose state never shows in its answers (a cache, a counter) is, for its user, one without state: the same
    answers, the same positions, the same panics in every session. *)
Theorem c81_cache : forall S P (Inv : S -> Prop) (I : implementor S) L qs p s, replaces_nothing I -> answers_as Inv I L -> Inv s ->
  match session_pure P L qs p with
  | Ret (p', l) => exists s', Inv s' /\ session P I qs p s = Ret (s', p', l)
  | Panic => session P I qs p s = Panic
  | UB => session P I qs p s = UB
  end.
Proof. exact c81_cache_pf. Qed.
Print Assumptions c81_cache.
Example c81_cache_ex : replaces_nothing (remembering Debug) /\ answers_as true_notes (remembering Debug) (referee Debug) /\ true_notes [(1, PSInProgress)] /\
  ('(p, l) <- session_pure Debug (referee Debug) the_moves (arbitrary_position the_startpos);; Ret (length (moves p), nth 9 l (AFlag true))) =
  Ret (4%nat, AResult (RErr GameFinished)).
Proof. split; [repeat split|]. split; [apply remembering_as|]. split; [repeat constructor|]. vm_compute. reflexivity. Qed.

(** C81: the implementors of the other theorems are those without state. *)
Theorem c81_stateless : forall P L p m,
  i_is_legal (stateless L) p m tt = (r <- lc_is_legal L p m;; Ret (tt, r)) /\
  i_is_legal_lite (stateless L) p m tt = (r <- lc_is_legal_lite L p m;; Ret (tt, r)) /\
  i_all_legal_moves (stateless L) p tt = (r <- lc_all_legal_moves L p;; Ret (tt, r)) /\
  i_make_move P (stateless L) p m tt = ('(p', r) <- lc_make_move P L p m;; Ret (tt, p', r)).
Proof. exact c81_stateless_pf. Qed.
Print Assumptions c81_stateless.
Example c81_stateless_ex : i_is_legal (stateless (referee Debug)) (arbitrary_position the_startpos) (nm 7 7 7 6 false) tt = Ret (tt, ROk) /\
  i_is_legal (stateless (referee Debug)) (arbitrary_position pos1) (nm 7 7 7 6 false) tt = Ret (tt, RErr GameFinished).
Proof. vm_compute. auto. Qed.

(** C81: "a move that [is_legal] has just called legal is one that [make_move] makes" is false of implementors with a state, even of
    those that answer, keep their promise and replace nothing. *)
Theorem c81_two_questions_refuted : exists S (I : implementor S) p m s s1 s2, (forall P, reachable P (inner p)) /\ valid_move m /\ replaces_nothing I /\
  i_answers Debug I /\ i_honest Debug I /\
  i_is_legal I p m s = Ret (s1, ROk) /\ i_make_move Debug I p m s1 = Ret (s2, p, RErr IncorrectMove).
Proof. exact c81_two_questions_refuted_pf. Qed.
Print Assumptions c81_two_questions_refuted.


(** C81: and with an own [make_move] the record need not hold the moves answered with Ok. *)
Theorem c81_own_make_move_refuted : exists (I : implementor unit) s0 qs p l, reachable Debug s0 /\ Forall valid_lq qs /\ i_answers Debug I /\ i_honest Debug I /\
  session Debug I qs (arbitrary_position s0) tt = Ret (tt, p, l) /\ length (made qs l) = 2%nat /\ moves p = [].
Proof. exact c81_own_make_move_refuted_pf. Qed.
Print Assumptions c81_own_make_move_refuted.

