(** Programs that search the tree of games with the library: they ask a [LegalityChecker] for the legal moves, clone the position,
    make the move and look further. And what they should answer, by the rules. *)
From Verif Require Export SpecContract.

(** ** Checkers that go by the rules *)
Definition by_the_rules (P : profile) (L : legality_checker) : Prop :=
  (exists ok, keeps_contract P L ok) /\
  forall s a m, reachable P s -> sees P s a -> valid_move m -> (says_legal L s m <-> left_safe a /\ legal a m = true).

(** ** The programs *)
(** [let mut t = s.clone(); t.make_move(m).unwrap();] *)
Definition go (P : profile) (s : partial_position) (m : move) : res partial_position :=
  '(t, r) <- make_move P m s;; match r with Some _ => Ret t | None => Panic end.
(** [let mut n: u64 = 0; for x in l { n += f(x); }] *)
Fixpoint sum_moves {A} (P : profile) (f : A -> res N) (n : N) (l : list A) : res N :=
  match l with [] => Ret n | x :: rest => k <- f x;; n <- add_w P 64 n k;; sum_moves P f n rest end.
(** [l.iter().all(f)] *)
Fixpoint all_res {A} (f : A -> res bool) (l : list A) : res bool :=
  match l with [] => Ret true | x :: rest => b <- f x;; if b : bool then all_res f rest else Ret false end.
(** [l.iter().find(f)] *)
Fixpoint find_res {A} (f : A -> res bool) (l : list A) : res (option A) :=
  match l with [] => Ret None | x :: rest => b <- f x;; if b : bool then Ret (Some x) else find_res f rest end.
(** counts the games of [n] moves, as engines do to test their move generators ("perft") *)
Fixpoint perft (P : profile) (L : legality_checker) (n : nat) (s : partial_position) : res N :=
  match n with
  | O => Ret 1
  | S n => l <- generate P L s;; sum_moves P (fun m => t <- go P s m;; perft P L n t) 0 l
  end.
(** a move with which the player on turn wins by force in at most [n] own moves; who cannot move has lost *)
Fixpoint solve (P : profile) (L : legality_checker) (n : nat) (s : partial_position) : res (option move) :=
  match n with
  | O => Ret None
  | S n =>
      l <- generate P L s;;
      find_res (fun m =>
        t <- go P s m;;
        replies <- generate P L t;;
        all_res (fun r => u <- go P t r;; o <- solve P L n u;; Ret (match o with Some _ => true | None => false end)) replies) l
  end.
(** plays what [solve] finds against an opponent who chooses among the legal moves; the last position, if the opponent cannot move *)
Fixpoint duel (P : profile) (L : legality_checker) (opp : partial_position -> list move -> move) (n : nat) (s : partial_position) :
  res (option partial_position) :=
  match n with
  | O => Ret None
  | S n =>
      o <- solve P L (S n) s;;
      match o with
      | None => Ret None
      | Some m =>
          t <- go P s m;;
          l <- generate P L t;;
          match l with [] => Ret (Some t) | _ :: _ => u <- go P t (opp t l);; duel P L opp n u end
      end
  end.

(** ** What they should answer *)
Definition legal_move (a : apos) (m : move) : Prop := valid_move m /\ legal a m = true.
(** the player on turn has a move after which there is a win with one move less whatever the reply *)
Fixpoint can_win (n : nat) (a : apos) : Prop :=
  match n with
  | O => False
  | S n => exists m, legal_move a m /\ forall r, legal_move (after a m) r -> can_win n (after (after a m) r)
  end.
Definition no_move (a : apos) : Prop := forall m, ~ legal_move a m.
(** an unsigned number of 64 bits that was added up *)
Definition sum_u64 (P : profile) (n : N) : res N :=
  if n <? modulus 64 then Ret n else if overflow_checks P then Panic else Ret (n mod modulus 64).
