(** Specification for implementors of [LegalityChecker] with a state: sessions, and the calls that the provided methods make. *)
From Verif Require Export MChecker SpecLegal.

(** ** Sessions: any calls on one implementor and one position *)
Inductive lq :=
| LStatus | LStatusPartial | LIsLegal (m : move) | LIsLegalLite (m : move) | LPartial (m : move) | LPartialLite (m : move)
| LAll | LAllPartial | LFrom (s : square) | LTo (s : square) (p : piece) | LDrops (p : piece)
| LMake (m : move).
Inductive la :=
| AStatus (st : position_status) | AResult (r : result illegal_move_kind) | AFlag (b : bool) | AMoves (l : list move) | ABoard (b : bitboard).
Definition as_answer {S A} (f : A -> la) (p : position) (r : res (S * A)) : res (S * position * la) := '(s, a) <- r;; Ret (s, p, f a).
Definition ask {S} (P : profile) (I : implementor S) (q : lq) (p : position) (s : S) : res (S * position * la) :=
  match q with
  | LStatus => as_answer AStatus p (i_status I p s)
  | LStatusPartial => as_answer AStatus p (i_status_partial I (inner p) s)
  | LIsLegal m => as_answer AResult p (i_is_legal I p m s)
  | LIsLegalLite m => as_answer AFlag p (i_is_legal_lite I p m s)
  | LPartial m => as_answer AResult p (i_is_legal_partial I (inner p) m s)
  | LPartialLite m => as_answer AFlag p (i_is_legal_partial_lite I (inner p) m s)
  | LAll => as_answer AMoves p (i_all_legal_moves I p s)
  | LAllPartial => as_answer AMoves p (i_all_legal_moves_partial I (inner p) s)
  | LFrom x => as_answer ABoard p (i_normal_from_candidates I (inner p) x s)
  | LTo x y => as_answer ABoard p (i_normal_to_candidates I (inner p) x y s)
  | LDrops x => as_answer ABoard p (i_drop_candidates I (inner p) x s)
  | LMake m => '(s, p, r) <- i_make_move P I p m s;; Ret (s, p, AResult r)
  end.
Fixpoint session {S} (P : profile) (I : implementor S) (qs : list lq) (p : position) (s : S) : res (S * position * list la) :=
  match qs with
  | [] => Ret (s, p, [])
  | q :: rest => '(s, p, a) <- ask P I q p s;; '(s, p, l) <- session P I rest p s;; Ret (s, p, a :: l)
  end.
(** the moves of [make_move] that were answered with [Ok] *)
Fixpoint made (qs : list lq) (l : list la) : list move :=
  match qs, l with
  | LMake m :: qs, AResult ROk :: l => m :: made qs l
  | _ :: qs, _ :: l => made qs l
  | _, _ => []
  end.
Definition valid_lq (q : lq) : Prop :=
  match q with
  | LIsLegal m | LIsLegalLite m | LPartial m | LPartialLite m | LMake m => valid_move m
  | LFrom x => valid_square x
  | LTo x y => valid_square x /\ valid_piece y
  | LDrops y => valid_piece y
  | _ => True
  end.

(** ** An implementor that keeps its promises: it always answers, and a move that it calls legal can be made *)
Definition answers {A S} (m : sm S A) : Prop := forall s, exists s' a, m s = Ret (s', a).
Definition i_answers {S} (P : profile) (I : implementor S) : Prop :=
  (forall p, reachable P (inner p) -> answers (i_status I p) /\ answers (i_all_legal_moves I p) /\
     forall m, valid_move m -> answers (i_is_legal I p m) /\ answers (i_is_legal_lite I p m)) /\
  (forall x, reachable P x -> answers (i_status_partial I x) /\ answers (i_all_legal_moves_partial I x) /\
     (forall m, valid_move m -> answers (i_is_legal_partial I x m) /\ answers (i_is_legal_partial_lite I x m)) /\
     (forall sq, valid_square sq -> answers (i_normal_from_candidates I x sq)) /\
     (forall sq y, valid_square sq -> valid_piece y -> answers (i_normal_to_candidates I x sq y)) /\
     (forall y, valid_piece y -> answers (i_drop_candidates I x y))).
Definition i_honest {S} (P : profile) (I : implementor S) : Prop :=
  forall p m s s', reachable P (inner p) -> valid_move m -> i_is_legal I p m s = Ret (s', ROk) -> exists q, pos_make_move P p m = Ret (q, Some tt).

(** ** What is called: an implementor that writes down every call of the methods it has to provide *)
Inductive call :=
| CStatus (p : position) | CStatusPartial (x : partial_position) | CLegal (x : partial_position) (m : move) | CLegalLite (x : partial_position) (m : move)
| CAll (x : partial_position) | CFrom (x : partial_position) (s : square) | CTo (x : partial_position) (s : square) (y : piece) | CDrops (x : partial_position) (y : piece).
Definition noted {S A} (c : call) (m : sm S A) : sm (S * list call) A := fun '(s, l) => '(s, a) <- m s;; Ret ((s, l ++ [c]), a).
Definition watched {S} (I : implementor S) : implementor (S * list call) :=
  Implementor (fun p => noted (CStatus p) (i_status I p)) (fun x => noted (CStatusPartial x) (i_status_partial I x))
    (fun x m => noted (CLegal x m) (i_is_legal_partial I x m)) (fun x m => noted (CLegalLite x m) (i_is_legal_partial_lite I x m))
    (fun x => noted (CAll x) (i_all_legal_moves_partial I x)) (fun x y => noted (CFrom x y) (i_normal_from_candidates I x y))
    (fun x y z => noted (CTo x y z) (i_normal_to_candidates I x y z)) (fun x y => noted (CDrops x y) (i_drop_candidates I x y))
    None None None None.
Definition replaces_nothing {S} (I : implementor S) : Prop := o_is_legal I = None /\ o_is_legal_lite I = None /\ o_all_legal_moves I = None /\ o_make_move I = None.
(** the calls that one call of the trait's user leads to, given the status the implementor answers *)
Definition calls_of (q : lq) (p : position) (st : position_status) : list call :=
  let then_ := fun c => CStatus p :: match st with PSInProgress => [c] | _ => [] end in
  match q with
  | LStatus => [CStatus p]
  | LStatusPartial => [CStatusPartial (inner p)]
  | LIsLegal m | LMake m => then_ (CLegal (inner p) m)
  | LIsLegalLite m => then_ (CLegalLite (inner p) m)
  | LPartial m => [CLegal (inner p) m]
  | LPartialLite m => [CLegalLite (inner p) m]
  | LAll => then_ (CAll (inner p))
  | LAllPartial => [CAll (inner p)]
  | LFrom x => [CFrom (inner p) x]
  | LTo x y => [CTo (inner p) x y]
  | LDrops y => [CDrops (inner p) y]
  end.
(** an implementor without state, as in [MLegality.v] *)
Definition stateless (L : legality_checker) : implementor unit :=
  let lift {A} (m : res A) : sm unit A := fun _ => a <- m;; Ret (tt, a) in
  Implementor (fun p => lift (lc_status L p)) (fun x => lift (lc_status_partial L x)) (fun x m => lift (lc_is_legal_partial L x m))
    (fun x m => lift (lc_is_legal_partial_lite L x m)) (fun x => lift (lc_all_legal_moves_partial L x)) (fun x y => lift (lc_normal_from_candidates L x y))
    (fun x y z => lift (lc_normal_to_candidates L x y z)) (fun x y => lift (lc_drop_candidates L x y)) None None None None.

(** ** A cache: the answers do not depend on the state, as long as the state is one of [Inv] *)
Definition gives {A S} (Inv : S -> Prop) (m : sm S A) (r : res A) : Prop :=
  forall s, Inv s -> match r with Ret a => exists s', Inv s' /\ m s = Ret (s', a) | Panic => m s = Panic | UB => m s = UB end.
Definition answers_as {S} (Inv : S -> Prop) (I : implementor S) (L : legality_checker) : Prop :=
  (forall p, gives Inv (i_status I p) (lc_status L p)) /\ (forall x, gives Inv (i_status_partial I x) (lc_status_partial L x)) /\
  (forall x m, gives Inv (i_is_legal_partial I x m) (lc_is_legal_partial L x m)) /\ (forall x m, gives Inv (i_is_legal_partial_lite I x m) (lc_is_legal_partial_lite L x m)) /\
  (forall x, gives Inv (i_all_legal_moves_partial I x) (lc_all_legal_moves_partial L x)) /\
  (forall x y, gives Inv (i_normal_from_candidates I x y) (lc_normal_from_candidates L x y)) /\
  (forall x y z, gives Inv (i_normal_to_candidates I x y z) (lc_normal_to_candidates L x y z)) /\
  (forall x y, gives Inv (i_drop_candidates I x y) (lc_drop_candidates L x y)).
(** what the user of a checker without state sees *)
Definition ask_pure (P : profile) (L : legality_checker) (q : lq) (p : position) : res (position * la) :=
  match q with
  | LStatus => a <- lc_status L p;; Ret (p, AStatus a)
  | LStatusPartial => a <- lc_status_partial L (inner p);; Ret (p, AStatus a)
  | LIsLegal m => a <- lc_is_legal L p m;; Ret (p, AResult a)
  | LIsLegalLite m => a <- lc_is_legal_lite L p m;; Ret (p, AFlag a)
  | LPartial m => a <- lc_is_legal_partial L (inner p) m;; Ret (p, AResult a)
  | LPartialLite m => a <- lc_is_legal_partial_lite L (inner p) m;; Ret (p, AFlag a)
  | LAll => a <- lc_all_legal_moves L p;; Ret (p, AMoves a)
  | LAllPartial => a <- lc_all_legal_moves_partial L (inner p);; Ret (p, AMoves a)
  | LFrom x => a <- lc_normal_from_candidates L (inner p) x;; Ret (p, ABoard a)
  | LTo x y => a <- lc_normal_to_candidates L (inner p) x y;; Ret (p, ABoard a)
  | LDrops x => a <- lc_drop_candidates L (inner p) x;; Ret (p, ABoard a)
  | LMake m => '(p, r) <- lc_make_move P L p m;; Ret (p, AResult r)
  end.
Fixpoint session_pure (P : profile) (L : legality_checker) (qs : list lq) (p : position) : res (position * list la) :=
  match qs with
  | [] => Ret (p, [])
  | q :: rest => '(p, a) <- ask_pure P L q p;; '(p, l) <- session_pure P L rest p;; Ret (p, a :: l)
  end.
