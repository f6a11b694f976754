(** Programs that search the tree of games in one position, without clones: they make a move, look further, and take the move back by the
    editing methods of [PartialPosition]. The library has no method that takes a move back. *)
From Verif Require Export SpecSearch SpecEdit.

(** ** The programs; each returns the position it was lent ([&mut PartialPosition]) *)
(** what takes the move [m] back, read from the position before it *)
Definition undo_list (P : profile) (s : partial_position) (m : move) : res (list op) :=
  a <- look P s;; h <- hand_of_a_player P s (side_to_move s);; Ret (take_back a m h).
(** makes the move, does [f], and takes the move back; [unwrap] on every answer *)
Definition within {B} (P : profile) (s : partial_position) (m : move) (f : partial_position -> res (partial_position * B)) :
  res (partial_position * B) :=
  os <- undo_list P s m;;
  t <- go P s m;;
  '(u, x) <- f t;;
  '(v, bs) <- run_ops P u os;;
  if forallb (fun b => b) bs then Ret (v, x) else Panic.
Section Lists.
  Context {A : Type}.
  Fixpoint sum_in (P : profile) (f : partial_position -> A -> res (partial_position * N)) (n : N) (s : partial_position) (l : list A) :
    res (partial_position * N) :=
    match l with [] => Ret (s, n) | x :: rest => '(s, k) <- f s x;; n <- add_w P 64 n k;; sum_in P f n s rest end.
  Fixpoint all_in (f : partial_position -> A -> res (partial_position * bool)) (s : partial_position) (l : list A) :
    res (partial_position * bool) :=
    match l with [] => Ret (s, true) | x :: rest => '(s, b) <- f s x;; if b : bool then all_in f s rest else Ret (s, false) end.
  Fixpoint find_in (f : partial_position -> A -> res (partial_position * bool)) (s : partial_position) (l : list A) :
    res (partial_position * option A) :=
    match l with [] => Ret (s, None) | x :: rest => '(s, b) <- f s x;; if b : bool then Ret (s, Some x) else find_in f s rest end.
End Lists.
Fixpoint perft_in (P : profile) (L : legality_checker) (n : nat) (s : partial_position) : res (partial_position * N) :=
  match n with
  | O => Ret (s, 1)
  | S n => l <- generate P L s;; sum_in P (fun s m => within P s m (perft_in P L n)) 0 s l
  end.
Fixpoint solve_in (P : profile) (L : legality_checker) (n : nat) (s : partial_position) : res (partial_position * option move) :=
  match n with
  | O => Ret (s, None)
  | S n =>
      l <- generate P L s;;
      find_in (fun s m =>
        within P s m (fun t =>
          replies <- generate P L t;;
          all_in (fun t r =>
            within P t r (fun u => '(u, o) <- solve_in P L n u;; Ret (u, match o with Some _ => true | None => false end))) t replies)) s l
  end.

(** ** What they rely on *)
(** [king_position] names every king (so no player has two) *)
Definition kings_known (a : apos) : Prop := forall sq c, valid_square sq -> a_board a sq = Some (King, c) -> a_king a c = Some sq.
(** the same position with another last move *)
Definition with_last (a : apos) (x : option move) : apos := APos (a_side a) (a_ply a) (a_board a) (a_hand a) x (a_king a).
