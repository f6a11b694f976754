(** Property theorems C10-C11: hands *)
From Verif Require Import THand.

(** C10: a new hand is empty and [count] is defined exactly for the seven hand kinds. *)
Theorem c10_new_and_count : forall P k,
  (In k hand_kinds -> hand_count P hand_new k = Ret (Some 0)) /\
  (forall h, valid_hand h ->
     (In k hand_kinds -> exists n, hand_count P h k = Ret (Some n) /\ n < 256 /\ Hand_count P h k = Ret n) /\
     (~ In k hand_kinds -> hand_count P h k = Ret None /\ Hand_count P h k = Ret 0)).
Proof. exact c10_new_and_count_pf. Qed.
Print Assumptions c10_new_and_count.
Example c10_new_and_count_ex : valid_hand (Hand [18;4;4;4;4;2;2;0]) /\ In Rook hand_kinds /\ ~ In King hand_kinds /\
  hand_count Debug (Hand [18;4;4;4;4;2;2;0]) Pawn = Ret (Some 18) /\ hand_count Debug (Hand [18;4;4;4;4;2;2;0]) King = Ret None.
Proof.
  split; [repeat split; repeat constructor; lia|]. split; [simpl; tauto|]. split; [simpl; intuition discriminate|].
  split; vm_compute; reflexivity.
Qed.

(** C10: [added] succeeds exactly for hand kinds; it increments that count modulo 256 and keeps the others. *)
Theorem c10_added : forall P h k, valid_hand h ->
  (In k hand_kinds ->
     exists h', hand_added P h k = Ret (Some h') /\ valid_hand h' /\ Hand_add P h k = Ret (h', true) /\
       (forall n, hand_count P h k = Ret (Some n) -> hand_count P h' k = Ret (Some ((n + 1) mod 256))) /\
       (forall j, j <> k -> hand_count P h' j = hand_count P h j)) /\
  (~ In k hand_kinds -> hand_added P h k = Ret None /\ Hand_add P h k = Ret (h, false)).
Proof. exact c10_added_pf. Qed.
Print Assumptions c10_added.
Example c10_added_ex : valid_hand (Hand [255;0;0;0;0;0;1;0]) /\
  hand_added Debug (Hand [255;0;0;0;0;0;1;0]) Rook = Ret (Some (Hand [255;0;0;0;0;0;2;0])) /\
  hand_added Debug (Hand [255;0;0;0;0;0;1;0]) Pawn = Ret (Some (Hand [0;0;0;0;0;0;1;0])) /\
  hand_added Debug (Hand [255;0;0;0;0;0;1;0]) ProPawn = Ret None.
Proof. split; [repeat split; repeat constructor; lia|]. repeat split; vm_compute; reflexivity. Qed.

(** C10: [removed] succeeds exactly for hand kinds with a positive count; it decrements it and keeps the others. *)
Theorem c10_removed : forall P h k, valid_hand h ->
  (forall n, hand_count P h k = Ret (Some n) -> 0 < n ->
     exists h', hand_removed P h k = Ret (Some h') /\ valid_hand h' /\ Hand_remove P h k = Ret (h', true) /\
       hand_count P h' k = Ret (Some (n - 1)) /\
       (forall j, j <> k -> hand_count P h' j = hand_count P h j)) /\
  (hand_count P h k = Ret None \/ hand_count P h k = Ret (Some 0) ->
     hand_removed P h k = Ret None /\ Hand_remove P h k = Ret (h, false)).
Proof. exact c10_removed_pf. Qed.
Print Assumptions c10_removed.
Example c10_removed_ex : valid_hand (Hand [0;0;0;0;3;0;0;0]) /\
  hand_removed Debug (Hand [0;0;0;0;3;0;0;0]) Gold = Ret (Some (Hand [0;0;0;0;2;0;0;0])) /\
  hand_removed Debug (Hand [0;0;0;0;3;0;0;0]) Pawn = Ret None.
Proof. split; [repeat split; repeat constructor; lia|]. repeat split; vm_compute; reflexivity. Qed.

(** C10: [is_hand_piece] and [all_hand_pieces] describe the seven hand kinds, in this order. *)
Theorem c10_hand_kinds : (forall k, is_hand_piece k = true <-> In k hand_kinds) /\
  all_hand_pieces = Ret hand_kinds /\ NUM_HAND_PIECES = N.of_nat (length hand_kinds).
Proof. exact c10_hand_kinds_pf. Qed.
Print Assumptions c10_hand_kinds.
Example c10_hand_kinds_ex : is_hand_piece Rook = true /\ is_hand_piece King = false /\ is_hand_piece ProRook = false.
Proof. repeat split. Qed.

(** C10: two hands are == iff all counts agree; and then they are the same value. *)
Theorem c10_eq_iff_same_counts : forall P h h', valid_hand h -> valid_hand h' ->
  (hand_eqb h h' = true <-> forall k, hand_count P h k = hand_count P h' k) /\ (hand_eqb h h' = true <-> h = h').
Proof. exact c10_eq_iff_same_counts_pf. Qed.
Print Assumptions c10_eq_iff_same_counts.
Example c10_eq_iff_same_counts_ex : valid_hand (Hand [1;0;0;0;0;0;0;0]) /\ valid_hand hand_new /\
  hand_eqb (Hand [1;0;0;0;0;0;0;0]) hand_new = false.
Proof. split; [repeat split; repeat constructor; lia|]. split; [repeat split; repeat constructor; lia|]. vm_compute; reflexivity. Qed.

(** C11: [removed] undoes [added] unless the counter wrapped (255 -> 0), and then it fails. *)
Theorem c11_removed_undoes_added : forall P h k n, valid_hand h -> hand_count P h k = Ret (Some n) ->
  exists h', hand_added P h k = Ret (Some h') /\
    hand_removed P h' k = Ret (if n <? 255 then Some h else None).
Proof. exact c11_removed_undoes_added_pf. Qed.
Print Assumptions c11_removed_undoes_added.
Example c11_removed_undoes_added_ex : valid_hand (Hand [255;0;0;0;0;0;1;0]) /\
  (h <- hand_added Debug (Hand [255;0;0;0;0;0;1;0]) Pawn;; match h with Some h => hand_removed Debug h Pawn | None => UB end) = Ret None.
Proof. split; [repeat split; repeat constructor; lia|]. vm_compute; reflexivity. Qed.

(** C11: [added] always undoes [removed]. *)
Theorem c11_added_undoes_removed : forall P h k h', valid_hand h -> hand_removed P h k = Ret (Some h') ->
  hand_added P h' k = Ret (Some h).
Proof. exact c11_added_undoes_removed_pf. Qed.
Print Assumptions c11_added_undoes_removed.
Example c11_added_undoes_removed_ex : valid_hand (Hand [0;0;0;0;3;0;0;0]) /\
  hand_removed Debug (Hand [0;0;0;0;3;0;0;0]) Gold = Ret (Some (Hand [0;0;0;0;2;0;0;0])).
Proof. split; [repeat split; repeat constructor; lia|]. vm_compute; reflexivity. Qed.

(** C11: after any history of [Hand_add]/[Hand_remove], every count is that of an 8-bit wrapping counter, and every
    call returned what such a counter would make it return. *)
Theorem c11_histories : forall P ops,
  exists h flags, hand_run P hand_new ops = Ret (h, flags) /\ length flags = length ops /\
    (forall k, In k hand_kinds -> hand_count P h k = Ret (Some (counter 0 ops k))) /\
    (forall i o, nth_error ops i = Some o ->
       nth_error flags i = Some (accepted (counter 0 (firstn i ops) (hand_op_kind o)) o)).
Proof. exact c11_histories_pf. Qed.
Print Assumptions c11_histories.
Example c11_histories_ex :
  hand_run Debug hand_new [HAdd Pawn; HAdd Rook; HRemove Rook; HRemove Rook; HAdd King; HAdd Pawn] =
  Ret (Hand [2;0;0;0;0;0;0;0], [true; true; true; false; false; true]).
Proof. vm_compute; reflexivity. Qed.

(** C11: the hands the other theorems quantify over are exactly those some history produces. *)
Theorem c11_reachable_hands : forall P h,
  valid_hand h <-> exists ops flags, hand_run P hand_new ops = Ret (h, flags).
Proof. exact c11_reachable_hands_pf. Qed.
Print Assumptions c11_reachable_hands.
Example c11_reachable_hands_ex : valid_hand (Hand [200;0;0;0;0;0;7;0]) /\ ~ valid_hand (Hand [0;0;0;0;0;0;0;1]).
Proof. split; [repeat split; repeat constructor; lia|]. intros (_ & _ & H). discriminate H. Qed.
