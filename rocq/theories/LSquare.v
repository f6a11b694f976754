(** Lemmas on MSquare *)
From Verif Require Export LBase.

Lemma square_eta s : Square (sq_repr s) = s.
Proof. now destruct s. Qed.
Lemma square_inj s t : sq_repr s = sq_repr t -> s = t.
Proof. destruct s, t; simpl; congruence. Qed.
Lemma square_at_valid f r : on_board f r -> valid_square (square_at f r).
Proof. unfold on_board, valid_square, square_at; simpl; lia. Qed.
Lemma file_of_at f r : on_board f r -> file_of (square_at f r) = f.
Proof. unfold on_board, file_of, square_at; simpl; intros; lia. Qed.
Lemma rank_of_at f r : on_board f r -> rank_of (square_at f r) = r.
Proof. unfold on_board, rank_of, square_at; simpl; intros; lia. Qed.
Lemma coords_on_board s : valid_square s -> on_board (file_of s) (rank_of s).
Proof. unfold on_board, file_of, rank_of, valid_square; intros; lia. Qed.
Lemma square_at_coords s : valid_square s -> square_at (file_of s) (rank_of s) = s.
Proof.
  unfold valid_square; intros H. apply square_inj. unfold square_at, file_of, rank_of; simpl. lia.
Qed.
Lemma rotate_repr s : valid_square s -> sq_repr (rotate s) = 82 - sq_repr s.
Proof. unfold valid_square, rotate, square_at, file_of, rank_of; simpl; intros; lia. Qed.
Lemma rotate_valid s : valid_square s -> valid_square (rotate s).
Proof. intros H. pose proof (rotate_repr s H). unfold valid_square in *. lia. Qed.
Lemma rotate_involutive s : valid_square s -> rotate (rotate s) = s.
Proof.
  intros H. apply square_inj. rewrite !rotate_repr; auto using rotate_valid.
  unfold valid_square in H. lia.
Qed.

Lemma sanity_check_ok P s : valid_square s -> sanity_check P s = Ret tt.
Proof.
  intros H. unfold sanity_check. assert (E : in_range 1 81 (sq_repr s) = true) by now apply in_range_iff.
  rewrite E. now destruct P.
Qed.
Lemma sq_file_ok P s : valid_square s -> sq_file P s = Ret (file_of s).
Proof. destruct P; sweep_square s. Qed.
Lemma sq_rank_ok P s : valid_square s -> sq_rank P s = Ret (rank_of s).
Proof. destruct P; sweep_square s. Qed.
Lemma sq_index_ok P s : valid_square s -> sq_index P s = Ret (sq_repr s).
Proof. intros H. unfold sq_index. now rewrite sanity_check_ok. Qed.
Lemma sq_array_index_ok P s : valid_square s -> sq_array_index P s = Ret (sq_repr s - 1).
Proof. destruct P; sweep_square s. Qed.
Lemma sq_from_u8_unchecked_ok v : 1 <= v <= 81 -> sq_from_u8_unchecked v = Ret (Square v).
Proof.
  intros H. unfold sq_from_u8_unchecked. assert (E : in_range 1 81 v = true) by now apply in_range_iff.
  rewrite E. simpl. unfold nonzero_new_unchecked. destruct (N.eqb_spec v 0); [lia|reflexivity].
Qed.
Lemma sq_flip_ok P s : valid_square s -> sq_flip P s = Ret (rotate s).
Proof. destruct P; sweep_square s. Qed.

Lemma coord_guard f r : is_u8 f -> is_u8 r ->
  ((9 <=? wrapping_sub_w 8 f 1) || (9 <=? wrapping_sub_w 8 r 1) = false <-> on_board f r).
Proof.
  unfold is_u8, on_board, wrapping_sub_w, modulus. change (2 ^ 8) with 256. intros. lia.
Qed.

Lemma sq_index_expr_ok P f r : on_board f r -> sq_index_expr P f r = Ret (9 * (f - 1) + r).
Proof.
  unfold on_board; intros H. unfold sq_index_expr.
  rewrite mul_w_ok by (change (2 ^ 8) with 256; lia). simpl.
  rewrite add_w_ok by (change (2 ^ 8) with 256; lia). simpl.
  rewrite sub_w_ok by lia. f_equal. lia.
Qed.

Lemma sq_new_some P f r : on_board f r -> sq_new P f r = Ret (Some (square_at f r)).
Proof.
  intros H. unfold sq_new.
  assert (is_u8 f /\ is_u8 r) as [Hf Hr] by (unfold on_board, is_u8 in *; lia).
  apply coord_guard in H as E; auto. rewrite E. rewrite sq_index_expr_ok by auto. simpl.
  unfold nonzero_new_unchecked. unfold on_board in H.
  destruct (N.eqb_spec (9 * (f - 1) + r) 0); [lia|reflexivity].
Qed.
Lemma sq_new_none P f r : is_u8 f -> is_u8 r -> ~ on_board f r -> sq_new P f r = Ret None.
Proof.
  intros Hf Hr H. unfold sq_new. rewrite <- coord_guard in H by auto.
  now apply not_false_is_true in H as ->.
Qed.
Lemma sq_new_relative_some P f r c : on_board f r ->
  sq_new_relative P f r c =
  Ret (Some (match c with Black => square_at f r | White => rotate (square_at f r) end)).
Proof.
  intros H. unfold sq_new_relative.
  assert (is_u8 f /\ is_u8 r) as [Hf Hr] by (unfold on_board, is_u8 in *; lia).
  apply coord_guard in H as E; auto. rewrite E. rewrite sq_index_expr_ok by auto. simpl.
  pose proof (rotate_repr _ (square_at_valid _ _ H)) as R.
  unfold nonzero_new_unchecked. unfold on_board in H. destruct c; simpl.
  - destruct (N.eqb_spec (9 * (f - 1) + r) 0); [lia|reflexivity].
  - rewrite sub_w_ok by lia. cbn [bind].
    destruct (N.eqb_spec (82 - (9 * (f - 1) + r)) 0); [lia|]. cbn [bind].
    do 2 f_equal. apply square_inj. symmetry. exact R.
Qed.
Lemma sq_new_relative_none P f r c : is_u8 f -> is_u8 r -> ~ on_board f r ->
  sq_new_relative P f r c = Ret None.
Proof.
  intros Hf Hr H. unfold sq_new_relative. rewrite <- coord_guard in H by auto.
  now apply not_false_is_true in H as ->.
Qed.

(** The point at signed coordinates *)
Definition z_on_board (f r : Z) : Prop := (1 <= f <= 9)%Z /\ (1 <= r <= 9)%Z.

Lemma shift_coord x d : 1 <= x <= 9 -> is_i8 d ->
  (i8_wrap (i8_wrap (u8_as_i8 x + d) - 1) = Z.of_N x + d - 1)%Z \/
  (~ (0 <= i8_wrap (i8_wrap (u8_as_i8 x + d) - 1) <= 8)%Z /\ ~ (1 <= Z.of_N x + d <= 9)%Z).
Proof. unfold is_i8, u8_as_i8, i8_wrap. intros. lia. Qed.

Lemma sq_shift_ok P s df dr : valid_square s -> is_i8 df -> is_i8 dr ->
  (z_on_board (Z.of_N (file_of s) + df) (Z.of_N (rank_of s) + dr) ->
   sq_shift P s df dr = Ret (Some (square_at (Z.to_N (Z.of_N (file_of s) + df))
                                             (Z.to_N (Z.of_N (rank_of s) + dr))))) /\
  (~ z_on_board (Z.of_N (file_of s) + df) (Z.of_N (rank_of s) + dr) ->
   sq_shift P s df dr = Ret None).
Proof.
  intros Hs Hf Hr. unfold sq_shift.
  rewrite sanity_check_ok, sq_file_ok, sq_rank_ok by auto. cbn [bind].
  destruct (coords_on_board s Hs) as [Bf Br].
  pose proof (shift_coord _ df Bf Hf) as Cf. pose proof (shift_coord _ dr Br Hr) as Cr.
  set (x := i8_wrap (i8_wrap (u8_as_i8 (file_of s) + df) - 1)) in *.
  set (y := i8_wrap (i8_wrap (u8_as_i8 (rank_of s) + dr) - 1)) in *.
  set (f := file_of s) in *. set (r := rank_of s) in *.
  unfold z_on_board. split; intros H.
  - assert (E : negb ((0 <=? x) && (x <=? 8))%Z || negb ((0 <=? y) && (y <=? 8))%Z = false) by lia.
    rewrite E.
    assert (x = Z.of_N f + df - 1)%Z as -> by lia.
    assert (y = Z.of_N r + dr - 1)%Z as -> by lia.
    unfold i8_mul, i8_add, i8_in.
    replace ((-128 <=? (Z.of_N f + df - 1) * 9) && ((Z.of_N f + df - 1) * 9 <=? 127))%Z
      with true by lia. cbn [bind].
    match goal with |- context [if ?b then _ else _] => replace b with true by lia end. cbn [bind].
    match goal with |- context [if ?b then _ else _] => replace b with true by lia end. cbn [bind].
    unfold i8_as_u8.
    rewrite sq_from_u8_unchecked_ok by lia. cbn [bind]. do 2 f_equal.
    apply square_inj. unfold square_at. cbn [sq_repr]. lia.
  - assert (E : negb ((0 <=? x) && (x <=? 8))%Z || negb ((0 <=? y) && (y <=? 8))%Z = true) by lia.
    now rewrite E.
Qed.

Lemma sq_from_u8_ok v : is_u8 v ->
  sq_from_u8 v = if in_range 1 81 v then Some (Square v) else None.
Proof.
  unfold is_u8, sq_from_u8, os_into, nonzero_new. simpl. intros H.
  destruct (in_range 0 81 v) eqn:E0; destruct (in_range 1 81 v) eqn:E1;
    unfold in_range in *; destruct (N.eqb_spec v 0); auto; lia.
Qed.

Lemma sq_all_ok : sq_all = Ret all_squares.
Proof. vm_compute. reflexivity. Qed.

Lemma os_round s : match s with Some q => valid_square q | None => True end -> os_into (os_from s) = s.
Proof.
  destruct s as [q|]; [|reflexivity]. unfold valid_square; intros H.
  unfold os_into, os_from, nonzero_new. simpl. destruct (N.eqb_spec (sq_repr q) 0); [lia|].
  now rewrite square_eta.
Qed.

Lemma sq_eqb_eq a b : sq_eqb a b = true <-> a = b.
Proof. unfold sq_eqb. rewrite N.eqb_eq. split; [apply square_inj|congruence]. Qed.
Lemma sq_eqb_refl a : sq_eqb a a = true.
Proof. now apply sq_eqb_eq. Qed.
