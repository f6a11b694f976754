(** Positions for the examples on searching programs. *)
From Verif Require Import LPosition.
From Verif Require Export SpecInPlace LSample LSampleR LSampleX.

(** Black mates with a gold in front of the king *)
Definition gold_mate : list op := [at_ 1 1 King White; at_ 1 3 Gold Black; at_ 9 9 King Black; holds Gold].
(** a king alone against a king with two golds on the board: no mate in one move *)
Definition two_golds : list op := [at_ 1 1 King White; at_ 2 3 Gold Black; at_ 1 4 Gold Black; at_ 9 9 King Black].
(** takes the first legal move *)
Definition first_reply (s : partial_position) (l : list move) : move := hd (rm 1 1 1 2 false) l.
Lemma gold_mate_valid : Forall valid_op gold_mate.
Proof. ops_valid. Qed.
Lemma two_golds_valid : Forall valid_op two_golds.
Proof. ops_valid. Qed.
Lemma gold_mate_few : few_pieces (abs (set_up_by gold_mate)).
Proof. intros k K. repeat (destruct K as [<-|K]; [vm_compute; discriminate|]). destruct K. Qed.
Lemma two_golds_few : few_pieces (abs (set_up_by two_golds)).
Proof. intros k K. repeat (destruct K as [<-|K]; [vm_compute; discriminate|]). destruct K. Qed.
Definition kings_known_b (a : apos) : bool := forallb (fun sq => match a_board a sq with
  | Some (King, c) => match a_king a c with Some t => same_square t sq | None => false end
  | _ => true end) squares.
Lemma kings_known_sound a : kings_known_b a = true -> kings_known a.
Proof.
  intros X sq c V B. apply valid_square_In in V. unfold kings_known_b in X. rewrite forallb_forall in X. specialize (X sq V). rewrite B in X.
  destruct (a_king a c) as [t|]; [|discriminate]. destruct (same_square_spec t sq); [now subst|discriminate].
Qed.
Lemma two_golds_known : kings_known (abs (set_up_by two_golds)).
Proof. apply kings_known_sound. vm_compute. reflexivity. Qed.
