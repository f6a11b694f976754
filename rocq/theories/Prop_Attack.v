(** Property theorems C73: attacks on bitboards *)
From Verif Require Import TAttack.
From Verif Require Import LSample LSampleR LPosition LRefine TRules LSampleX.

(** C73: the shifts, with the mask, move every member by one step and nothing else. *)
Theorem c73_translate : forall P c d b, valid_bb b -> (-9 <= fst d <= 9)%Z -> (-9 <= snd d <= 9)%Z -> exists b', translate P c d b = Ret b' /\ valid_bb b' /\
  forall t, valid_square t -> (bb_contains P b' t = Ret true <-> moved P c d b t).
Proof. exact c73_translate_pf. Qed.
Print Assumptions c73_translate.
Example c73_translate_ex : (forall b, bb_single Debug (square_at 9 2) = Ret b -> valid_bb b) /\
  squares_of (b <- bb_single Debug (square_at 9 2);; translate Debug Black (-1, -1)%Z b) = [sq_repr (square_at 8 1)] /\
  squares_of (b <- bb_single Debug (square_at 9 2);; translate Debug Black (1, -1)%Z b) = [] /\
  squares_of (b <- bb_single Debug (square_at 5 5);; translate Debug White (-1, -2)%Z b) = [sq_repr (square_at 6 7)].
Proof.
  split; [intros b E; injection E as <-; split; reflexivity|].
  repeat (split; [vm_compute; reflexivity|]). vm_compute. reflexivity.
Qed.

(** C73: the squares a player attacks in any reachable position, worked out on bitboards, are those of the rules. *)
Theorem c73_attacks : forall P s a c, reachable P s -> sees P s a -> exists b, attack_set P s c = Ret b /\ bb_is P b (attacked_by (a_board a) c).
Proof. exact c73_attacks_pf. Qed.
Print Assumptions c73_attacks.
Example c73_attacks_ex : reachable Debug (set_up_by attacked) /\ sees Debug (set_up_by attacked) (abs (set_up_by attacked)) /\
  played Debug the_startpos /\
  length (squares_of (attack_set Debug the_startpos Black)) = 30%nat /\
  squares_of (attack_set Debug (set_up_by attacked) White) =
    map sq_repr (map (fun f => square_at f 1) [1; 2; 3; 4] ++ map (square_at 5) [2; 3; 4; 5; 6; 7; 8; 9] ++ map (fun f => square_at f 1) [6; 7] ++ [square_at 8 1; square_at 8 2; square_at 9 1; square_at 9 2]).
Proof.
  split; [apply set_up_reachable, attacked_valid|]. split; [apply set_up_sees, attacked_valid|].
  split; [apply start_played|]. repeat (split; [vm_compute; reflexivity|]). vm_compute. reflexivity.
Qed.

(** C73: ... and so is check. *)
Theorem c73_check : forall P s a c, reachable P s -> sees P s a -> in_check P s c = Ret (check (a_board a) c).
Proof. exact c73_check_pf. Qed.
Print Assumptions c73_check.
Example c73_check_ex : reachable Debug (set_up_by attacked) /\ sees Debug (set_up_by attacked) (abs (set_up_by attacked)) /\
  in_check Debug (set_up_by attacked) Black = Ret true /\ in_check Debug (set_up_by attacked) White = Ret false /\
  in_check Debug the_startpos Black = Ret false.
Proof.
  split; [apply set_up_reachable, attacked_valid|]. split; [apply set_up_sees, attacked_valid|].
  repeat (split; [vm_compute; reflexivity|]). vm_compute. reflexivity.
Qed.

(** C73: the squares the piece on a square can go to: those the rules let it go to. *)
Theorem c73_destinations : forall P s a from, reachable P s -> sees P s a -> valid_square from -> exists b, destinations P s from = Ret b /\
  bb_is P b (fun to => match a_board a from with Some (_, c) => attacks (a_board a) from to && negb (owned_by (a_board a) c to) | None => false end) /\
  (owned_by (a_board a) (a_side a) from = true -> bb_is P b (fun to => moves_right a (Normal from to false) || moves_right a (Normal from to true))).
Proof. exact c73_destinations_pf. Qed.
Print Assumptions c73_destinations.
Example c73_destinations_ex : reachable Debug the_startpos /\ sees Debug the_startpos (abs the_startpos) /\ valid_square (square_at 2 8) /\
  squares_of (destinations Debug the_startpos (square_at 2 8)) = map (fun f => sq_repr (square_at f 8)) [1; 3; 4; 5; 6; 7] /\
  squares_of (destinations Debug the_startpos (square_at 9 1)) = [sq_repr (square_at 9 2)] /\
  squares_of (destinations Debug the_startpos (square_at 8 8)) = [].
Proof.
  split; [apply start_reachable|]. split; [apply reachable_sees, start_reachable|]. split; [split; discriminate|].
  repeat (split; [vm_compute; reflexivity|]). vm_compute. reflexivity.
Qed.

(** C73: the squares a player who has a pawn in hand can drop it on, by the rules. *)
Theorem c73_pawn_drops : forall P s a, reachable P s -> sees P s a -> 0 < a_hand a (a_side a) Pawn -> exists b, pawn_drops P s (a_side a) = Ret b /\
  bb_is P b (fun to => moves_right a (Drop (piece_of Pawn (a_side a)) to)).
Proof. exact c73_pawn_drops_pf. Qed.
Print Assumptions c73_pawn_drops.
Example c73_pawn_drops_ex : reachable Debug (set_up_by pawns) /\ sees Debug (set_up_by pawns) (abs (set_up_by pawns)) /\ a_hand (abs (set_up_by pawns)) Black Pawn = 1 /\
  length (squares_of (pawn_drops Debug (set_up_by pawns) Black)) = 56%nat /\
  squares_of (pawn_drops Debug the_startpos Black) = [].
Proof.
  split; [apply set_up_reachable, pawns_valid|]. split; [apply set_up_sees, pawns_valid|]. split; [vm_compute; reflexivity|].
  repeat (split; [vm_compute; reflexivity|]). vm_compute. reflexivity.
Qed.

(** C73: what one player does is what the other does on the board turned round. *)
Theorem c73_flip : forall P c d b, valid_bb b -> (-9 <= fst d <= 9)%Z -> (-9 <= snd d <= 9)%Z -> exists f t r,
  bb_flip P b = Ret f /\ translate P c d b = Ret t /\ bb_flip P t = Ret r /\ translate P (opponent c) d f = Ret r.
Proof. exact c73_flip_pf. Qed.
Print Assumptions c73_flip.
Example c73_flip_ex : (forall b, bb_single Debug (square_at 9 2) = Ret b -> valid_bb b) /\
  squares_of (b <- bb_single Debug (square_at 9 2);; t <- translate Debug Black (-1, -1)%Z b;; bb_flip Debug t) = [sq_repr (square_at 2 9)] /\
  squares_of (b <- bb_single Debug (square_at 1 8);; translate Debug White (-1, -1)%Z b) = [sq_repr (square_at 2 9)].
Proof.
  split; [intros b E; injection E as <-; split; reflexivity|].
  split; vm_compute; reflexivity.
Qed.

(** C73: shifts of a union are the union of the shifts, and of an intersection the intersection. *)
Theorem c73_set_laws : forall P c d a b, valid_bb a -> valid_bb b -> (-9 <= fst d <= 9)%Z -> (-9 <= snd d <= 9)%Z -> exists x y,
  translate P c d a = Ret x /\ translate P c d b = Ret y /\ translate P c d (bb_or a b) = Ret (bb_or x y) /\ translate P c d (bb_and a b) = Ret (bb_and x y).
Proof. exact c73_set_laws_pf. Qed.
Print Assumptions c73_set_laws.
Example c73_set_laws_ex : (forall b, piece_kind_bitboard Debug the_startpos Pawn = Ret b -> valid_bb b) /\
  squares_of (b <- piece_kind_bitboard Debug the_startpos Pawn;; translate Debug Black ahead b) = map sq_repr (flat_map (fun f => [square_at f 2; square_at f 6]) nine_files) /\
  squares_of (b <- piece_bitboard Debug the_startpos (piece_of Pawn White);; translate Debug White ahead b) = map sq_repr (map (fun f => square_at f 4) nine_files).
Proof.
  split; [intros b E; vm_compute in E; injection E as <-; split; reflexivity|].
  split; vm_compute; reflexivity.
Qed.

(** C73: shifts in a direction add up. *)
Theorem c73_add_up : forall P b m n, valid_bb b -> m + n <= 9 ->
  (x <- bb_shift_up P b m;; bb_shift_up P x n) = bb_shift_up P b (m + n) /\
  (x <- bb_shift_down P b m;; bb_shift_down P x n) = bb_shift_down P b (m + n) /\
  (x <- bb_shift_left P b m;; bb_shift_left P x n) = bb_shift_left P b (m + n) /\
  (x <- bb_shift_right P b m;; y <- bb_shift_right P (bb_and x whole) n;; Ret (bb_and y whole)) = (y <- bb_shift_right P b (m + n);; Ret (bb_and y whole)).
Proof. exact c73_add_up_pf. Qed.
Print Assumptions c73_add_up.
Example c73_add_up_ex : (forall b, piece_kind_bitboard Debug the_startpos Bishop = Ret b -> valid_bb b) /\
  squares_of (b <- piece_kind_bitboard Debug the_startpos Bishop;; x <- bb_shift_right Debug b 1;; y <- bb_shift_right Debug (bb_and x whole) 2;; Ret (bb_and y whole)) = [sq_repr (square_at 5 8)] /\
  squares_of (b <- piece_kind_bitboard Debug the_startpos Bishop;; bb_shift_left Debug b 3) = [sq_repr (square_at 5 2)].
Proof.
  split; [intros b E; vm_compute in E; injection E as <-; split; reflexivity|].
  split; vm_compute; reflexivity.
Qed.

(** C73: without the mask the squares next to 9A are counted as three, though there are two, and taking them out one by one panics in a build with debug
    assertions and gives 7I in any other. *)
Theorem c73_careless : exists b t, valid_bb b /\ (forall P, bb_single P (square_at 9 1) = Ret b /\ careless P b = Ret t /\ bb_count P t = Ret 3 /\
    (forall q, valid_square q -> bb_contains P t q = Ret (same_square q (square_at 8 1) || same_square q (square_at 9 2)))) /\
  (forall P, debug_assertions P = true -> bb_pop P t = Panic) /\
  (forall P, debug_assertions P = false -> exists r, bb_pop P t = Ret (r, Some (square_at 7 9))).
Proof. exact c73_careless_pf. Qed.
Print Assumptions c73_careless.
Example c73_careless_ex :
  squares_of (b <- bb_single Debug (square_at 9 1);; careless Debug b) = map sq_repr [square_at 8 1; square_at 9 2] /\
  (b <- bb_single Debug (square_at 5 5);; t <- careless Debug b;; bb_count Debug t) = Ret 4.
Proof. split; vm_compute; reflexivity. Qed.
