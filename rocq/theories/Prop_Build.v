(** Property theorems C49: the constants generated by the build script *)
From Verif Require Import TBuild.

(** C49: each of the two places with piece constants (associated constants of [Piece], module [piece]) has exactly one constant per kind
    and color, with that name and the value [Piece::new] gives for it. *)
Theorem c49_pieces : forall P here, In here [of_impl "Piece"; of_mod "piece"] ->
  exists cs vs, constants here piece_consts_rs = Some cs /\ all_some (fun x => piece_meaning P (snd x)) cs = Some vs /\ length cs = 28%nat /\
    exactly (fun _ => True) (fun x => piece_name (fst x) (snd x)) (fun x => Ret (piece_of (fst x) (snd x))) vs.
Proof. exact c49_pieces_pf. Qed.
Print Assumptions c49_pieces.
Example c49_pieces_ex : option_map (fun l => map (fun x => piece_meaning Debug (snd x)) (firstn 2 (skipn 13 l))) (constants (of_impl "Piece") piece_consts_rs) =
  Some [Some ("B_PR"%string, Ret (Piece 14)); Some ("W_P"%string, Ret (Piece 17))].
Proof. vm_compute; reflexivity. Qed.

(** C49: each of the two places with square constants has exactly one constant per file 1-9 and rank A-I, with that name, which is
    [Square::new] of that file and rank. *)
Theorem c49_squares : forall P here, In here [of_impl "Square"; of_mod "square"] ->
  exists cs vs, constants here square_consts_rs = Some cs /\ all_some (fun x => square_meaning (snd x)) cs = Some vs /\ length cs = 81%nat /\
    exactly (fun x => 1 <= fst x <= 9 /\ 1 <= snd x <= 9) (fun x => square_name (fst x) (snd x)) (fun x => Ret (square_at (fst x) (snd x))) vs /\
    forall f r, 1 <= f <= 9 -> 1 <= r <= 9 -> sq_new P f r = Ret (Some (square_at f r)).
Proof. exact c49_squares_pf. Qed.
Print Assumptions c49_squares.
Example c49_squares_ex : option_map (fun l => map (fun x => square_meaning (snd x)) (firstn 2 (skipn 59 l))) (constants (of_mod "square") square_consts_rs) =
  Some [Some ("SQ_7F"%string, Ret (Square 60)); Some ("SQ_7G"%string, Ret (Square 61))].
Proof. vm_compute; reflexivity. Qed.

(** C49: the files contain no other constants, and the doc comment of every constant in a module names the associated constant of the
    same name. *)
Theorem c49_nothing_else :
  (exists a b, constants (of_impl "Piece") piece_consts_rs = Some a /\ constants (of_mod "piece") piece_consts_rs = Some b /\
     constants (fun _ => true) piece_consts_rs = Some (a ++ b) /\ forallb (says "Piece") b = true) /\
  (exists a b, constants (of_impl "Square") square_consts_rs = Some a /\ constants (of_mod "square") square_consts_rs = Some b /\
     constants (fun _ => true) square_consts_rs = Some (a ++ b) /\ forallb (says "Square") b = true).
Proof. exact c49_nothing_else_pf. Qed.
Print Assumptions c49_nothing_else.
Example c49_nothing_else_ex : nth_error (lines square_consts_rs) 4 = Some "    pub const SQ_1A: Square = unsafe { Square::from_u8_unchecked(1) };"%string /\
  option_map (@length _) (constants (fun _ => true) square_consts_rs) = Some 162%nat.
Proof. vm_compute; auto. Qed.

(** C49: what the rest of the model uses for these constants is what the text says; any other name does not exist. *)
Theorem c49_model : forall P,
  (forall k c, piece_const P (piece_name k c) = Ret (piece_of k c)) /\
  (forall f r, 1 <= f <= 9 -> 1 <= r <= 9 -> square_const (square_name f r) = Ret (square_at f r)) /\
  (forall n, (forall k c, n <> piece_name k c) -> piece_const P n = Panic) /\
  (forall n, (forall f r, 1 <= f <= 9 -> 1 <= r <= 9 -> n <> square_name f r) -> square_const n = Panic).
Proof. exact c49_model_pf. Qed.
Print Assumptions c49_model.
Example c49_model_ex : piece_const Release "W_PB" = Ret (Piece 29) /\ square_const "SQ_7G" = Ret (Square 61) /\ piece_const Debug "B_PG" = Panic /\ square_const "SQ_0A" = Panic.
Proof. vm_compute; auto. Qed.
