(** Property theorems C08-C09: moves and compact moves *)
From Verif Require Import TMove.

(** C08: a move survives the conversion to [CompactMove] and back; the compact form is the documented, nonzero, 16-bit number;
    [CompactMove::normal] and [CompactMove::drop] are the same conversion. *)
Theorem c08_move_round_trip : forall P m, valid_move m ->
  exists c, cm_of_move P m = Ret c /\ move_of_cm P c = Ret m /\
    cm_repr c = packed m /\ cm_repr c <> 0 /\ cm_repr c < 65536 /\
    match m with
    | Normal from to promote => cm_normal P from to promote = Ret c
    | Drop p to => cm_drop P p to = Ret c
    end.
Proof. exact c08_move_round_trip_pf. Qed.
Print Assumptions c08_move_round_trip.
Example c08_move_round_trip_ex :
  valid_move (Normal (Square 61) (Square 60) true) /\
  cm_of_move Debug (Normal (Square 61) (Square 60) true) = Ret (CompactMove 48444) /\
  move_of_cm Debug (CompactMove 48444) = Ret (Normal (Square 61) (Square 60) true).
Proof. split; [unfold valid_move, valid_square; simpl; lia|]. split; vm_compute; reflexivity. Qed.

(** C08: distinct moves have distinct compact forms, and every compact form is that of exactly one move. *)
Theorem c08_compact_bijection : forall P c, valid_compact c ->
  exists m, valid_move m /\ move_of_cm P c = Ret m /\ cm_of_move P m = Ret c /\
    forall m', valid_move m' -> cm_of_move P m' = Ret c -> m' = m.
Proof. exact c08_compact_bijection_pf. Qed.
Print Assumptions c08_compact_bijection.
Example c08_compact_bijection_ex : valid_compact (CompactMove 7849) /\ move_of_cm Release (CompactMove 7849) = Ret (Drop (Piece 30) (Square 41)).
Proof.
  split; [|vm_compute; reflexivity]. exists (Drop (Piece 30) (Square 41)).
  split; [unfold valid_move, valid_square, valid_piece; simpl; lia|vm_compute; reflexivity].
Qed.

(** C09: the accessors of a [CompactMove] are those of the [Move] it encodes. *)
Theorem c09_accessors_agree : forall P m c, valid_move m -> cm_of_move P m = Ret c ->
  cm_from P c = Ret (mv_from m) /\ cm_to c = Ret (mv_to m) /\
  cm_is_promoting c = mv_is_promoting m /\ cm_is_drop c = mv_is_drop m /\
  (o <- CompactMove_from P c;; Ret (os_into o)) = Ret (mv_from m).
Proof. exact c09_accessors_agree_pf. Qed.
Print Assumptions c09_accessors_agree.
Example c09_accessors_agree_ex :
  valid_move (Drop (Piece 17) (Square 41)) /\ cm_of_move Debug (Drop (Piece 17) (Square 41)) = Ret (CompactMove 4521) /\
  cm_from Debug (CompactMove 4521) = Ret None /\ cm_to (CompactMove 4521) = Ret (Square 41).
Proof. split; [unfold valid_move, valid_square, valid_piece; simpl; lia|]. repeat split; vm_compute; reflexivity. Qed.

(** C09: and the accessors of [Move] are what they say. *)
Theorem c09_move_accessors : forall from to promote p,
  mv_from (Normal from to promote) = Some from /\ mv_to (Normal from to promote) = to /\
  mv_is_promoting (Normal from to promote) = promote /\ mv_is_drop (Normal from to promote) = false /\
  mv_from (Drop p to) = None /\ mv_to (Drop p to) = to /\
  mv_is_promoting (Drop p to) = false /\ mv_is_drop (Drop p to) = true.
Proof. exact c09_move_accessors_pf. Qed.
Print Assumptions c09_move_accessors.
Example c09_move_accessors_ex : mv_from (Normal (Square 1) (Square 2) true) = Some (Square 1).
Proof. reflexivity. Qed.

(** C08: [==] on [Move], [CompactMove] and [OptionCompactMove] is equality. *)
Theorem c08_move_eq : forall m m' c c' o o',
  (move_eqb m m' = true <-> m = m') /\ (cm_eqb c c' = true <-> c = c') /\ (ocm_eqb o o' = true <-> o = o').
Proof. exact c08_move_eq_pf. Qed.
Print Assumptions c08_move_eq.
Example c08_move_eq_ex : move_eqb (Normal (Square 1) (Square 2) true) (Normal (Square 1) (Square 2) false) = false.
Proof. vm_compute; reflexivity. Qed.
