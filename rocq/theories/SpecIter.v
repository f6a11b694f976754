(** Specification of a bitboard as an iterator: the list of its squares. *)
From Verif Require Export SpecBase SpecBoard MIter.

(** [l]: the squares of [b], from the least up *)
Definition listing (P : profile) (b : bitboard) (l : list square) : Prop :=
  ascending l /\ forall s, In s l <-> valid_square s /\ bb_contains P b s = Ret true.
(** a loop over a list with [break]: the elements that are left, and the value *)
Fixpoint loop {A B C : Type} (f : B -> A -> res (B + C)) (b : B) (l : list A) : res (list A * (B + C)) :=
  match l with
  | [] => Ret ([], inl b)
  | x :: rest => match f b x with Ret (inl b') => loop f b' rest | Ret (inr c) => Ret (rest, inr c) | Panic => Panic | UB => UB end
  end.
(** what comes after the first element with [p] *)
Fixpoint after {A : Type} (p : A -> bool) (l : list A) : list A := match l with [] => [] | x :: rest => if p x then rest else after p rest end.
(** the place of the first element with [p] *)
Fixpoint place {A : Type} (p : A -> bool) (l : list A) : option N :=
  match l with [] => None | x :: rest => if p x then Some 0 else option_map N.succ (place p rest) end.
(** the last element *)
Fixpoint final {A : Type} (l : list A) : option A := match l with [] => None | x :: rest => match final rest with Some y => Some y | None => Some x end end.
(** order as in a dictionary *)
Inductive in_dictionary : list square -> list square -> comparison -> Prop :=
| same_word l : in_dictionary l l Eq
| shorter l x r : in_dictionary l (l ++ x :: r) Lt
| longer l x r : in_dictionary (l ++ x :: r) l Gt
| smaller l x y r r' : sq_repr x < sq_repr y -> in_dictionary (l ++ x :: r) (l ++ y :: r') Lt
| greater l x y r r' : sq_repr y < sq_repr x -> in_dictionary (l ++ x :: r) (l ++ y :: r') Gt.
(** [next], called again and again from state [t] on, gives the elements of [l] and then [None] *)
Inductive delivers {T A : Type} (next : iter T A) : T -> list A -> Prop :=
| the_end t t' : next t = Ret (t', None) -> delivers next t []
| one_more t t' x l : next t = Ret (t', Some x) -> delivers next t' l -> delivers next t (x :: l).
(** the elements with their numbers, from [i] on *)
Fixpoint numbered {A : Type} (i : N) (l : list A) : list (N * A) := match l with [] => [] | x :: rest => (i, x) :: numbered (i + 1) rest end.
