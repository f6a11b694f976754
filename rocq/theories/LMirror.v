(** Colour symmetry of the abstract game. *)
From Verif Require Export LAbstract.

Notation opp_o := (option_map (fun x : piece_kind * color => (fst x, opponent (snd x)))).
Lemma mirror_square_valid s : valid_square s -> valid_square (mirror_square s).
Proof. unfold valid_square, mirror_square. simpl. lia. Qed.
Lemma mirror_square_involutive s : valid_square s -> mirror_square (mirror_square s) = s.
Proof. unfold valid_square, mirror_square. intros. apply square_inj. simpl. lia. Qed.
Lemma mirror_same s t : valid_square s -> valid_square t -> same_square s (mirror_square t) = same_square (mirror_square s) t.
Proof. unfold valid_square, mirror_square, same_square. simpl. intros. apply eq_true_iff_eq. rewrite !N.eqb_eq. lia. Qed.
Lemma mirror_piece_valid p : valid_piece (mirror_piece p).
Proof. apply piece_of_valid. Qed.
Lemma mirror_parts p : parts_of (mirror_piece p) = (kind_of p, opponent (color_of p)).
Proof. unfold parts_of, mirror_piece. now rewrite kind_of_of, color_of_of. Qed.
Lemma mirror_kind p : kind_of (mirror_piece p) = kind_of p.
Proof. apply kind_of_of. Qed.
Lemma mirror_color p : color_of (mirror_piece p) = opponent (color_of p).
Proof. apply color_of_of. Qed.
Lemma mirror_move_valid m : valid_move m -> valid_move (mirror_move m).
Proof. destruct m; intros [? ?]; split; auto using mirror_square_valid, mirror_piece_valid. Qed.
Lemma mirror_move_involutive m : valid_move m -> mirror_move (mirror_move m) = m.
Proof.
  destruct m as [f t pr|p t]; intros [? ?]; cbn [mirror_move]; rewrite !mirror_square_involutive by auto; auto.
  f_equal. unfold mirror_piece. rewrite kind_of_of, color_of_of, opponent_involutive. now apply piece_of_parts.
Qed.
Lemma same_color_opponent c d : same_color (opponent c) (opponent d) = same_color c d.
Proof. now destruct c, d. Qed.
Lemma same_color_opp_l c d : same_color c (opponent d) = same_color (opponent c) d.
Proof. now destruct c, d. Qed.

Lemma mirror_aeq a b : aeq a b -> aeq (mirror a) (mirror b).
Proof.
  intros (A & B & C & D & E & F). unfold aeq. cbn [mirror a_side a_ply a_board a_hand a_last a_king].
  split; [congruence|]. split; [auto|]. split; [|split; [auto|split; [congruence|]]].
  - intros sq V. rewrite C; auto using mirror_square_valid.
  - intros c. now rewrite F.
Qed.
Lemma mirror_put a sq x : valid_square sq -> aeq (a_put (mirror a) (mirror_square sq) (opp_o x)) (mirror (a_put a sq x)).
Proof.
  intros V. repeat split.
  - intros t Vt. simpl. rewrite mirror_same by auto. now destruct (same_square (mirror_square t) sq).
  - intros c. simpl. destruct x as [[k d]|]; simpl; auto. destruct k; auto. rewrite same_color_opp_l. now destruct (same_color (opponent c) d).
Qed.
Lemma mirror_set_hand a c k n : aeq (a_set_hand (mirror a) (opponent c) k n) (mirror (a_set_hand a c k n)).
Proof. repeat split. intros d l Hl. simpl. now rewrite same_color_opp_l. Qed.
Lemma mirror_pass a m : aeq (a_pass (mirror a) (mirror_move m)) (mirror (a_pass a m)).
Proof. repeat split. Qed.

Lemma mirror_a_move a m : valid_move m -> aeq_o (a_move (mirror a) (mirror_move m)) (option_map mirror (a_move a m)).
Proof.
  intros V. destruct m as [f t pr|p t]; destruct V as [V1 V2]; cbn [mirror_move a_move mirror a_board a_side a_hand].
  - rewrite !mirror_square_involutive by auto. destruct (a_board a f) as [[k c]|]; cbn [option_map fst snd]; [|exact I].
    rewrite same_color_opponent. destruct (same_color c (a_side a)); [|exact I].
    destruct (if pr then promoted k else Some k) as [k'|]; [|exact I].
    assert (G : forall b b', aeq b (mirror b') -> aeq (a_pass (a_put (a_put b (mirror_square f) None) (mirror_square t) (Some (k', opponent c)))
        (Normal (mirror_square f) (mirror_square t) pr)) (mirror (a_pass (a_put (a_put b' f None) t (Some (k', c))) (Normal f t pr)))).
    { intros b b' H. eapply aeq_trans; [|apply mirror_pass]. apply a_pass_aeq.
      eapply aeq_trans; [|apply mirror_put; auto]. apply a_put_aeq.
      eapply aeq_trans; [|apply mirror_put; auto]. now apply (a_put_aeq _ _ _ None). }
    destruct (a_board a t) as [[e d]|]; cbn [option_map fst snd].
    + rewrite same_color_opponent. destruct (_ && _); [|exact I]. cbn [option_map aeq_o]. rewrite opponent_involutive. apply G. apply mirror_set_hand.
    + apply G. apply aeq_refl.
  - rewrite mirror_square_involutive by auto. rewrite !mirror_kind, !mirror_color.
    rewrite same_color_opponent, opponent_involutive. destruct (_ && _); [|exact I].
    destruct (a_board a t) as [[e d]|]; cbn [option_map fst snd aeq_o]; [exact I|].
    eapply aeq_trans; [|apply mirror_pass]. cbn [mirror_move]. apply a_pass_aeq.
    eapply aeq_trans; [|apply mirror_put; auto]. cbn [option_map]. rewrite mirror_parts. cbn [parts_of fst snd]. apply a_put_aeq.
    apply mirror_set_hand.
Qed.
Lemma mirror_try a m : valid_move m ->
  aeq (fst (a_try (mirror a) (mirror_move m))) (mirror (fst (a_try a m))) /\ snd (a_try (mirror a) (mirror_move m)) = snd (a_try a m).
Proof.
  intros V. pose proof (mirror_a_move a m V) as H. unfold a_try.
  destruct (a_move (mirror a) (mirror_move m)), (a_move a m); simpl in *; try contradiction; auto using aeq_refl.
Qed.
Lemma mirror_op_valid o : valid_op o -> valid_op (mirror_op o).
Proof.
  destruct o; cbn [mirror_op valid_op]; auto.
  - intros [V Vx]. split; [now apply mirror_square_valid|]. destruct x; simpl; auto. apply mirror_piece_valid.
  - apply mirror_move_valid.
  - intros V. apply valid_compact_unpack in V as [V _]. eexists. split; [apply mirror_move_valid; exact V|reflexivity].
Qed.
Lemma mirror_a_op a o : valid_op o ->
  aeq (fst (a_op (mirror a) (mirror_op o))) (mirror (fst (a_op a o))) /\ snd (a_op (mirror a) (mirror_op o)) = snd (a_op a o).
Proof.
  intros V. destruct o; cbn [mirror_op valid_op a_op fst snd] in *.
  - split; auto. eapply aeq_trans; [|apply mirror_put; apply V]. destruct x as [p|]; cbn [option_map]; [rewrite mirror_parts|]; apply aeq_refl.
  - now apply mirror_try.
  - apply valid_compact_unpack in V as [V _]. rewrite unpack_packed by now apply mirror_move_valid. now apply mirror_try.
  - split; auto. repeat split.
  - destruct (n =? 0); cbn [fst snd]; split; auto using aeq_refl.
  - split; auto. repeat split. intros d k Hk. simpl. now rewrite same_color_opp_l.
Qed.
Lemma mirror_a_ops a b os : Forall valid_op os -> aeq b (mirror a) ->
  aeq (fst (a_ops b (map mirror_op os))) (mirror (fst (a_ops a os))) /\ snd (a_ops b (map mirror_op os)) = snd (a_ops a os).
Proof.
  intros V. revert a b. induction V as [|o os Vo V IH]; intros a b H; [auto|]. cbn [map a_ops].
  pose proof (mirror_a_op a o Vo) as [A1 B1]. pose proof (a_op_aeq _ _ (mirror_op o) (mirror_op_valid o Vo) H) as [A2 B2].
  destruct (a_op b (mirror_op o)) as [b1 x1], (a_op (mirror a) (mirror_op o)) as [b2 x2], (a_op a o) as [a1 x3]. cbn [fst snd] in *.
  specialize (IH a1 b1 (aeq_trans _ _ _ A2 A1)) as [I1 I2].
  destruct (a_ops b1 (map mirror_op os)), (a_ops a1 os). cbn [fst snd] in *. split; auto. congruence.
Qed.
Lemma mirror_empty : aeq (a_set_side a_empty White) (mirror a_empty).
Proof. repeat split. Qed.
Lemma mirror_opening : aeq (a_set_side a_opening White) (mirror a_opening).
Proof.
  repeat split.
  - intros sq. sweep_square sq.
  - intros []; reflexivity.
Qed.
