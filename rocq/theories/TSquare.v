(** Proofs of the property theorems on squares (restated in Prop_Square.v). *)
From Verif Require Export LSquare.
(*PROPHEAD
Property theorems C01-C04: squares
*)

(** C01: [Square::new] succeeds exactly on 1..=9 x 1..=9 and the result has these coordinates. *)
Lemma c01_square_new_pf : forall P f r, is_u8 f -> is_u8 r ->
  (on_board f r ->
     exists s, sq_new P f r = Ret (Some s) /\ valid_square s /\
               sq_file P s = Ret f /\ sq_rank P s = Ret r /\ sq_index P s = Ret (9 * f + r - 9)) /\
  (~ on_board f r -> sq_new P f r = Ret None).
Proof.
  intros P f r Hf Hr. split; intros H.
  - exists (square_at f r). pose proof (square_at_valid _ _ H).
    rewrite sq_new_some, sq_file_ok, sq_rank_ok, sq_index_ok, file_of_at, rank_of_at by auto.
    repeat split; auto; try (apply H0). f_equal. unfold square_at, on_board in *. cbn [sq_repr]. lia.
  - now apply sq_new_none.
Qed.

(** C01: every square is [Square::new] of exactly one pair, namely its [file()] and [rank()]. *)
Lemma c01_square_unique_coordinates_pf : forall P s, valid_square s ->
  exists f r, sq_file P s = Ret f /\ sq_rank P s = Ret r /\ on_board f r /\
    forall f' r', is_u8 f' -> is_u8 r' -> (sq_new P f' r' = Ret (Some s) <-> f' = f /\ r' = r).
Proof.
  intros P s H. exists (file_of s), (rank_of s).
  rewrite sq_file_ok, sq_rank_ok by auto. pose proof (coords_on_board s H) as B.
  do 3 (split; auto). intros f' r' H0 H1.
  destruct (c01_square_new_pf P f' r' H0 H1) as [A1 A2].
  assert (D : on_board f' r' \/ ~ on_board f' r') by (unfold on_board; lia).
  split.
  - intros H2. destruct D as [D|D]; [|rewrite A2 in H2 by auto; discriminate].
    rewrite sq_new_some in H2 by auto. injection H2 as <-. now rewrite file_of_at, rank_of_at.
  - intros [-> ->]. rewrite sq_new_some by auto. now rewrite square_at_coords.
Qed.

(** C02: [flip] is the rotation (f, r) -> (10-f, 10-r), and an involution. *)
Lemma c02_flip_rotates_pf : forall P f r, on_board f r ->
  exists s t, sq_new P f r = Ret (Some s) /\ sq_new P (10 - f) (10 - r) = Ret (Some t) /\
              sq_flip P s = Ret t /\ sq_flip P t = Ret s.
Proof.
  intros P f r H. assert (H' : on_board (10 - f) (10 - r)) by (unfold on_board in *; lia).
  exists (square_at f r), (square_at (10 - f) (10 - r)).
  rewrite !sq_new_some by auto. rewrite !sq_flip_ok by (auto using square_at_valid).
  unfold rotate. rewrite !file_of_at, !rank_of_at by auto. repeat split.
  replace (10 - (10 - f)) with f by (unfold on_board in *; lia).
  now replace (10 - (10 - r)) with r by (unfold on_board in *; lia).
Qed.

(** C02: [new_relative] is [new] seen by the player: for White, the flipped square. *)
Lemma c02_new_relative_pf : forall P f r, is_u8 f -> is_u8 r ->
  sq_new_relative P f r Black = sq_new P f r /\
  (forall s, sq_new P f r = Ret (Some s) ->
     exists t, sq_flip P s = Ret t /\ sq_new_relative P f r White = Ret (Some t)) /\
  (sq_new P f r = Ret None -> sq_new_relative P f r White = Ret None).
Proof.
  intros P f r Hf Hr.
  assert (D : on_board f r \/ ~ on_board f r) by (unfold on_board; lia).
  destruct D as [D|D].
  - rewrite !sq_new_relative_some, sq_new_some by auto. repeat split; auto; try discriminate.
    intros s [= <-]. exists (rotate (square_at f r)). now rewrite sq_flip_ok by auto using square_at_valid.
  - rewrite !sq_new_relative_none, sq_new_none by auto. repeat split; auto; discriminate.
Qed.

(** C02: [relative_file]/[relative_rank] are the coordinates seen by the player, and invert [new_relative]. *)
Lemma c02_relative_coordinates_pf : forall P s c, valid_square s ->
  exists f r, sq_file P s = Ret f /\ sq_rank P s = Ret r /\
    sq_relative_file P s c = Ret (seen_by c f) /\ sq_relative_rank P s c = Ret (seen_by c r) /\
    sq_new_relative P (seen_by c f) (seen_by c r) c = Ret (Some s).
Proof.
  intros P s c H. exists (file_of s), (rank_of s).
  unfold sq_relative_file, sq_relative_rank. rewrite sq_file_ok, sq_rank_ok by auto. cbn [bind].
  pose proof (coords_on_board s H) as B.
  assert (B' : on_board (seen_by c (file_of s)) (seen_by c (rank_of s)))
    by (unfold on_board, seen_by in *; destruct c; lia).
  rewrite sq_new_relative_some by auto.
  destruct c; cbn [seen_by] in *.
  - rewrite square_at_coords by auto. auto.
  - rewrite !sub_w_ok by (unfold on_board in *; lia). repeat split.
    do 2 f_equal. exact (rotate_involutive s H).
Qed.

(** C03: [shift] is exact translation, for every pair of i8 deltas. *)
Lemma c03_shift_translates_pf : forall P f r df dr, on_board f r -> is_i8 df -> is_i8 dr ->
  exists s, sq_new P f r = Ret (Some s) /\
  let f' := (Z.of_N f + df)%Z in let r' := (Z.of_N r + dr)%Z in
  ((1 <= f' <= 9)%Z /\ (1 <= r' <= 9)%Z ->
     exists t, sq_shift P s df dr = Ret (Some t) /\ sq_new P (Z.to_N f') (Z.to_N r') = Ret (Some t)) /\
  (~ ((1 <= f' <= 9)%Z /\ (1 <= r' <= 9)%Z) -> sq_shift P s df dr = Ret None).
Proof.
  intros P f r df dr H Hf Hr. exists (square_at f r). rewrite sq_new_some by auto. split; auto.
  intros f' r'. destruct (sq_shift_ok P (square_at f r) df dr (square_at_valid _ _ H) Hf Hr) as [A B].
  rewrite file_of_at, rank_of_at in A, B by auto. fold f' r' in A, B. unfold z_on_board in *.
  split; intros D; [|auto].
  eexists. split; [apply A; auto|]. apply sq_new_some. unfold on_board. lia.
Qed.

(** C04: [from_u8] succeeds exactly on 1..=81 and [index] inverts it; [array_index] is one less. *)
Lemma c04_from_u8_index_pf : forall P v, is_u8 v ->
  (1 <= v <= 81 ->
     exists s, sq_from_u8 v = Some s /\ valid_square s /\
               sq_index P s = Ret v /\ sq_array_index P s = Ret (v - 1)) /\
  (~ (1 <= v <= 81) -> sq_from_u8 v = None).
Proof.
  intros P v Hv. rewrite sq_from_u8_ok by auto. split; intros H.
  - exists (Square v). assert (in_range 1 81 v = true) as -> by now apply in_range_iff.
    rewrite sq_index_ok, sq_array_index_ok by exact H. repeat split; auto; apply H.
  - destruct (in_range 1 81 v) eqn:E; auto. apply in_range_iff in E. tauto.
Qed.

(** C04: conversely every square is [from_u8] of its [index]; so indices identify squares. *)
Lemma c04_index_from_u8_pf : forall P s, valid_square s ->
  exists v, sq_index P s = Ret v /\ 1 <= v <= 81 /\ sq_from_u8 v = Some s /\
            sq_array_index P s = Ret (v - 1) /\ v - 1 < SQUARE_NUM.
Proof.
  intros P s H. exists (sq_repr s). rewrite sq_index_ok, sq_array_index_ok by auto.
  rewrite sq_from_u8_ok by (unfold is_u8, valid_square in *; lia).
  assert (in_range 1 81 (sq_repr s) = true) as -> by now apply in_range_iff.
  rewrite square_eta. unfold valid_square, SQUARE_NUM in *. repeat split; auto; lia.
Qed.

(** C04: [Square::all] yields the 81 squares in ascending order of index, each exactly once. *)
Lemma c04_all_lists_every_square_pf :
  exists l, sq_all = Ret l /\ NoDup l /\ (forall s, In s l <-> valid_square s) /\
            forall P, map_res (sq_index P) l = Ret (range 1 82).
Proof.
  exists all_squares. split; [apply sq_all_ok|]. split.
  - apply all_squares_NoDup.
  - split; [intros; symmetry; apply valid_square_In|]. intros []; vm_compute; reflexivity.
Qed.

(** C04: [OptionSquare] encodes [None] as 0 and loses nothing. *)
Lemma c04_option_square_round_trip_pf : forall o,
  (forall s, o = Some s -> valid_square s) ->
  os_into (os_from o) = o /\ (os_repr (os_from o) = 0 <-> o = None).
Proof.
  intros o H. split.
  - apply os_round. destruct o; auto.
  - destruct o as [s|]; simpl; [|tauto]. specialize (H s eq_refl). unfold valid_square in H.
    split; [lia|discriminate].
Qed.

(** C01/C04: the C interfaces return the same squares. *)
Lemma c04_c_interface_pf : forall P f r c, is_u8 f -> is_u8 r ->
  exists a b, sq_new P f r = Ret a /\ (o <- Square_new P f r;; Ret (os_into o)) = Ret a /\
    sq_new_relative P f r c = Ret b /\ (o <- Square_new_relative P f r c;; Ret (os_into o)) = Ret b.
Proof.
  intros P f r c Hf Hr. unfold Square_new, Square_new_relative.
  assert (D : on_board f r \/ ~ on_board f r) by (unfold on_board; lia).
  destruct D as [D|D].
  - rewrite sq_new_some, sq_new_relative_some by auto. cbn [bind].
    rewrite !os_round; eauto 10 using square_at_valid.
    destruct c; auto using square_at_valid, rotate_valid.
  - rewrite sq_new_none, sq_new_relative_none by auto. cbn [bind]. eauto 10.
Qed.

(** C02: the C interface of [new_relative] counts from the given player's side. *)
Lemma c02_c_new_relative_pf : forall P f r, is_u8 f -> is_u8 r ->
  (on_board f r -> Square_new_relative P f r Black = Ret (OptionSquare (9 * f + r - 9)) /\
                   Square_new_relative P f r White = Ret (OptionSquare (91 - 9 * f - r))) /\
  (~ on_board f r -> forall c, Square_new_relative P f r c = Ret (OptionSquare 0)).
Proof.
  intros P f r Hf Hr. unfold Square_new_relative. split.
  - intros D. rewrite !sq_new_relative_some by auto. cbn [bind os_from]. unfold on_board in D. split.
    + replace (9 * f + r - 9) with (9 * (f - 1) + r) by lia. reflexivity.
    + unfold rotate. rewrite file_of_at, rank_of_at by auto. unfold square_at. cbn [sq_repr].
      replace (91 - 9 * f - r) with (9 * (10 - f - 1) + (10 - r)) by lia. reflexivity.
  - intros D c. rewrite sq_new_relative_none by auto. reflexivity.
Qed.

(** C07: [OptionSquare]. *)
Lemma c07_option_square_round_trip_pf : forall o,
  (forall s, o = Some s -> valid_square s) ->
  os_into (os_from o) = o /\ (os_repr (os_from o) = 0 <-> o = None) /\
  (forall o', (forall s, o' = Some s -> valid_square s) -> os_repr (os_from o') = os_repr (os_from o) -> o' = o).
Proof.
  intros o H. destruct (c04_option_square_round_trip_pf o H) as [A B]. split; auto. split; auto.
  intros o' H' E. destruct (c04_option_square_round_trip_pf o' H') as [A' _]. rewrite <- A, <- A'. f_equal.
  destruct (os_from o'), (os_from o). simpl in E. congruence.
Qed.
