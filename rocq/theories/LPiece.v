(** Lemmas on colors, piece kinds and pieces. *)
From Verif Require Export LBase.

Lemma piece_inj p q : piece_repr p = piece_repr q -> p = q.
Proof. destruct p, q; simpl; congruence. Qed.
Lemma piece_of_valid k c : valid_piece (piece_of k c).
Proof. destruct k, c; unfold valid_piece, piece_of; simpl; lia. Qed.
Lemma kind_of_of k c : kind_of (piece_of k c) = k.
Proof. destruct k, c; reflexivity. Qed.
Lemma color_of_of k c : color_of (piece_of k c) = c.
Proof. destruct k, c; reflexivity. Qed.
Lemma piece_of_parts p : valid_piece p -> piece_of (kind_of p) (color_of p) = p.
Proof. sweep_piece p. Qed.
Lemma piece_of_inj k c k' c' : piece_of k c = piece_of k' c' -> k = k' /\ c = c'.
Proof. intros H. split; [rewrite <- (kind_of_of k c), H|rewrite <- (color_of_of k c), H];
  auto using kind_of_of, color_of_of. Qed.

Lemma color_flip_ok c : color_flip c = Ret (opponent c).
Proof. destruct c; reflexivity. Qed.
Lemma opponent_involutive c : opponent (opponent c) = c.
Proof. now destruct c. Qed.
Lemma opponent_neq c : opponent c <> c.
Proof. destruct c; discriminate. Qed.
Definition color_number (c : color) : N := match c with Black => 0 | White => 1 end.
Lemma color_array_index_ok P c : color_array_index P c = Ret (color_number c).
Proof. destruct P, c; reflexivity. Qed.
Lemma color_eqb_eq a b : color_eqb a b = true <-> a = b.
Proof. destruct a, b; simpl; split; congruence. Qed.
Lemma color_eqb_refl a : color_eqb a a = true.
Proof. now destruct a. Qed.

Lemma pk_as_u8_number k : pk_as_u8 k = kind_number k.
Proof. now destruct k. Qed.
Lemma kind_number_range k : 1 <= kind_number k <= 14.
Proof. destruct k; simpl; lia. Qed.
Lemma kind_number_inj k l : kind_number k = kind_number l -> k = l.
Proof. destruct k, l; intros H; try reflexivity; vm_compute in H; discriminate. Qed.
Lemma pk_dec (a b : piece_kind) : {a = b} + {a <> b}.
Proof. decide equality. Qed.
Lemma pk_eqb_eq a b : pk_eqb a b = true <-> a = b.
Proof.
  unfold pk_eqb. rewrite N.eqb_eq, !pk_as_u8_number.
  split; [apply kind_number_inj|now intros ->].
Qed.
Lemma pk_array_index_ok P k : pk_array_index P k = Ret (kind_number k - 1).
Proof. destruct P, k; reflexivity. Qed.
Lemma pk_from_u8_unchecked_ok k : pk_from_u8_unchecked (kind_number k) = Ret k.
Proof. now destruct k. Qed.
Lemma pk_from_u8_unchecked_range v : 1 <= v <= 14 ->
  exists k, pk_from_u8_unchecked v = Ret k /\ kind_number k = v.
Proof.
  intros H. assert (In v (range 1 15)) as I by (apply range_In; lia).
  vm_compute in I. repeat (destruct I as [<-|I]; [eexists; split; reflexivity|]). destruct I.
Qed.

Lemma pk_promote_spec k l : pk_promote k = Some l <-> promotes_to k l.
Proof. split; [destruct k; intros [= <-]; constructor|now intros []]. Qed.
Lemma pk_unpromote_spec k l : pk_unpromote k = Some l <-> promotes_to l k.
Proof. split; [destruct k; intros [= <-]; constructor|now intros []]. Qed.
Lemma base_kind_unpromote k : base_kind k = match pk_unpromote k with Some l => l | None => k end.
Proof. now destruct k. Qed.
Lemma base_kind_promote k l : pk_promote k = Some l -> base_kind l = k /\ base_kind k = k.
Proof. destruct k; intros [= <-]; auto. Qed.

Lemma piece_new_ok P k c : piece_new P k c = Ret (piece_of k c).
Proof. destruct P, k, c; reflexivity. Qed.
Lemma piece_to_parts_ok p : valid_piece p -> piece_to_parts p = Ret (kind_of p, color_of p).
Proof. sweep_piece p. Qed.
Lemma piece_piece_kind_ok p : valid_piece p -> piece_piece_kind p = Ret (kind_of p).
Proof. sweep_piece p. Qed.
Lemma piece_color_ok p : valid_piece p -> piece_color p = Ret (color_of p).
Proof. sweep_piece p. Qed.
Lemma piece_promote_ok P p : valid_piece p ->
  piece_promote P p = Ret (option_map (fun k => piece_of k (color_of p)) (pk_promote (kind_of p))).
Proof. destruct P; sweep_piece p. Qed.
Lemma piece_unpromote_ok P p : valid_piece p ->
  piece_unpromote P p = Ret (option_map (fun k => piece_of k (color_of p)) (pk_unpromote (kind_of p))).
Proof. destruct P; sweep_piece p. Qed.
Lemma piece_array_index_ok P p : valid_piece p -> piece_array_index P p = Ret (piece_repr p - 1).
Proof. destruct P; sweep_piece p. Qed.
Lemma piece_from_u8_ok p : valid_piece p -> piece_from_u8_unchecked (piece_repr p) = Ret p.
Proof. sweep_piece p. Qed.
Lemma piece_all_ok P : exists l, piece_all P = Ret l /\ NoDup l /\ length l = 28%nat /\
  forall p, In p l <-> valid_piece p.
Proof.
  eexists. split; [destruct P; vm_compute; reflexivity|]. split; [|split; [reflexivity|]].
  - repeat constructor; simpl; intros H;
      repeat (destruct H as [H|H]; [discriminate H|]); destruct H.
  - intros p. rewrite valid_piece_In. unfold all_pieces. simpl. tauto.
Qed.
Lemma piece_eqb_eq a b : piece_eqb a b = true <-> a = b.
Proof. unfold piece_eqb. rewrite N.eqb_eq. split; [apply piece_inj|congruence]. Qed.
Lemma piece_eqb_refl a : piece_eqb a a = true.
Proof. now apply piece_eqb_eq. Qed.
Lemma op_round o : match o with Some p => valid_piece p | None => True end -> op_into (op_from o) = o.
Proof.
  destruct o as [p|]; [|reflexivity]. unfold valid_piece; intros H.
  unfold op_into, op_from, nonzero_new. cbn [op_repr]. destruct (N.eqb_spec (piece_repr p) 0); [lia|].
  now destruct p.
Qed.
Lemma op_inj a b : op_repr a = op_repr b -> a = b.
Proof. destruct a, b; simpl; congruence. Qed.
