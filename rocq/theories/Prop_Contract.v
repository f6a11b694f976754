(** Property theorems C75: the contract of LegalityChecker *)
From Verif Require Import TContract.
From Verif Require Import LPiece LSample LSampleR LSampleS LRefine LSampleX.

(** C75: whoever keeps the contract, the provided methods answer, agree with each other, let no move pass when the game is over and only
    moves that succeed otherwise, and [make_move] does not panic. *)
Theorem c75_provided : forall P L ok p m, keeps_contract P L ok -> ok p -> valid_move m ->
  exists st r b l p', lc_status L p = Ret st /\ lc_is_legal L p m = Ret r /\ lc_is_legal_lite L p m = Ret b /\ lc_all_legal_moves L p = Ret l /\
    lc_make_move P L p m = Ret (p', r) /\
    (r = ROk <-> b = true) /\ (b = true <-> In m l) /\
    (st <> PSInProgress -> r = RErr GameFinished /\ l = []) /\
    (r = ROk -> make_move P m (inner p) = Ret (inner p', Some tt) /\ moves p' = moves p ++ [m]) /\ (r <> ROk -> p' = p).
Proof. exact c75_provided_pf. Qed.
Print Assumptions c75_provided.
Example c75_provided_ex : reachable Debug (inner the_record) /\
  (lc_is_legal (lenient Debug) the_record (rm 9 9 1 5 false), lc_is_legal (lenient Debug) the_record (rm 9 9 1 9 false)) = (Ret ROk, Ret (RErr IncorrectMove)) /\
  (lc_is_legal_lite (full_checker Debug) the_record (rm 7 7 7 6 false), lc_is_legal_lite (full_checker Debug) the_record (rm 7 7 7 5 false)) = (Ret true, Ret false) /\
  (* the contract asks for something *)
  ~ keeps_contract Debug yes_sayer (fun _ => False).
Proof.
  assert (R : reachable Debug the_start) by (exists the_start, [], []; split; [right; vm_compute; reflexivity|]; split; [constructor|reflexivity]).
  split; [exact R|]. split; [vm_compute; reflexivity|]. split; [vm_compute; reflexivity|]. intros K.
  destruct (k_succeeds _ _ _ K the_start (rm 9 9 1 9 false) R) as (s' & E); [repeat split; discriminate|reflexivity|]. vm_compute in E. discriminate.
Qed.

(** C75: whoever keeps the contract, the client that uses the bitboards finds every legal move exactly once, without an allocator. *)
Theorem c75_generate : forall P L ok s, keeps_contract P L ok -> reachable P s ->
  exists l, generate P L s = Ret l /\ NoDup l /\ forall m, In m l <-> valid_move m /\ says_legal L s m.
Proof. exact c75_generate_pf. Qed.
Print Assumptions c75_generate.
Example c75_generate_ex : reachable Debug (set_up_by hunt) /\ keeps_contract Debug (rules_checker Debug) (fun p => reachable Debug (inner p)) /\
  let gen os := match generate Debug (rules_checker Debug) (set_up_by os) with Ret l => l | _ => [] end in
  let all os := match lc_all_legal_moves_partial (rules_checker Debug) (set_up_by os) with Ret l => l | _ => [] end in
  (N.of_nat (length (gen hunt)), N.of_nat (length (all hunt)), N.of_nat (length (gen (hunt ++ [holds Gold])))) = (22, 22, 100) /\
  (existsb (move_eqb (rm 4 5 4 1 true)) (gen hunt), existsb (move_eqb (rm 4 5 9 5 true)) (gen hunt)) = (true, false).
Proof.
  split; [apply set_up_reachable, hunt_valid|]. split; [apply c75_rules_pf|].
  split; vm_compute; reflexivity.
Qed.

(** C75: the implementor that goes by the rules keeps the contract, and so does the one that knows of repetition. *)
Theorem c75_rules : forall P, keeps_contract P (rules_checker P) (fun p => reachable P (inner p)) /\ keeps_contract P (full_checker P) (recorded P).
Proof. exact c75_rules_pf. Qed.
Print Assumptions c75_rules.
Example c75_rules_ex : recorded Debug the_record /\
  lc_status_partial (rules_checker Debug) the_start = Ret PSInProgress /\
  squares_of (lc_normal_from_candidates (rules_checker Debug) the_start (square_at 7 7)) = [sq_repr (square_at 7 6)] /\
  squares_of (lc_normal_to_candidates (rules_checker Debug) the_start (square_at 7 6) (piece_of Pawn Black)) = [sq_repr (square_at 7 7)] /\
  squares_of (lc_drop_candidates (rules_checker Debug) (set_up_by (attacked ++ [holds Pawn])) (piece_of Pawn Black)) =
    map (fun r => sq_repr (square_at 5 r)) [2; 3; 4; 5; 6; 7; 8].
Proof.
  split.
  { exists the_record, the_start, (abs the_start), [], []. split; [apply created_startpos; vm_compute; reflexivity|]. split; [apply sees_abs, (reachable_wf Debug)|].
    - exists the_start, [], []; split; [right; vm_compute; reflexivity|]; split; [constructor|reflexivity].
    - split; [intros k K; cbn [In hand_kinds] in K; repeat (destruct K as [<-|K]; [vm_compute; discriminate|]); destruct K|]. split; [constructor|reflexivity]. }
  repeat (split; [vm_compute; reflexivity|]). vm_compute. reflexivity.
Qed.

(** C75: the contract does not say what the rules are: an implementor that calls every move legal that [make_move] accepts keeps it too,
    and the two differ. *)
Theorem c75_not_determined : forall P, keeps_contract P (lenient P) (fun p => reachable P (inner p)) /\
  exists s m, reachable P s /\ valid_move m /\ says_legal (lenient P) s m /\ ~ says_legal (rules_checker P) s m.
Proof. exact c75_not_determined_pf. Qed.
Print Assumptions c75_not_determined.
Example c75_not_determined_ex : lc_is_legal_partial (lenient Debug) the_start (rm 9 9 1 5 false) = Ret ROk /\
  lc_is_legal_partial (rules_checker Debug) the_start (rm 9 9 1 5 false) = Ret (RErr IncorrectMove) /\
  lc_normal_from_candidates (lenient Debug) the_start (square_at 9 9) <> lc_normal_from_candidates (rules_checker Debug) the_start (square_at 9 9).
Proof. split; [vm_compute; reflexivity|]. split; [vm_compute; reflexivity|]. vm_compute. discriminate. Qed.
