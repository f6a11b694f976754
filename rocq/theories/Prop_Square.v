(** Property theorems C01-C04: squares *)
From Verif Require Import TSquare.

(** C01: [Square::new] succeeds exactly on 1..=9 x 1..=9 and the result has these coordinates. *)
Theorem c01_square_new : forall P f r, is_u8 f -> is_u8 r ->
  (on_board f r ->
     exists s, sq_new P f r = Ret (Some s) /\ valid_square s /\
               sq_file P s = Ret f /\ sq_rank P s = Ret r /\ sq_index P s = Ret (9 * f + r - 9)) /\
  (~ on_board f r -> sq_new P f r = Ret None).
Proof. exact c01_square_new_pf. Qed.
Print Assumptions c01_square_new.
Example c01_square_new_ex :
  is_u8 9 /\ is_u8 1 /\ on_board 9 1 /\ ~ on_board 0 1 /\ ~ on_board 255 10 /\
  sq_new Debug 9 1 = Ret (Some (Square 73)) /\ sq_new Release 255 10 = Ret None.
Proof. unfold is_u8, on_board. repeat split; try lia; vm_compute; reflexivity. Qed.

(** C01: every square is [Square::new] of exactly one pair, namely its [file()] and [rank()]. *)
Theorem c01_square_unique_coordinates : forall P s, valid_square s ->
  exists f r, sq_file P s = Ret f /\ sq_rank P s = Ret r /\ on_board f r /\
    forall f' r', is_u8 f' -> is_u8 r' -> (sq_new P f' r' = Ret (Some s) <-> f' = f /\ r' = r).
Proof. exact c01_square_unique_coordinates_pf. Qed.
Print Assumptions c01_square_unique_coordinates.
Example c01_square_unique_coordinates_ex :
  valid_square (Square 70) /\ sq_file Debug (Square 70) = Ret 8 /\ sq_rank Debug (Square 70) = Ret 7.
Proof. unfold valid_square; simpl; repeat split; try lia; vm_compute; reflexivity. Qed.

(** C02: [flip] is the rotation (f, r) -> (10-f, 10-r), and an involution. *)
Theorem c02_flip_rotates : forall P f r, on_board f r ->
  exists s t, sq_new P f r = Ret (Some s) /\ sq_new P (10 - f) (10 - r) = Ret (Some t) /\
              sq_flip P s = Ret t /\ sq_flip P t = Ret s.
Proof. exact c02_flip_rotates_pf. Qed.
Print Assumptions c02_flip_rotates.
Example c02_flip_rotates_ex :
  on_board 2 8 /\ (s <- sq_new Debug 2 8;; match s with Some s => sq_flip Debug s | None => UB end)
  = (s <- sq_new Debug 8 2;; match s with Some s => Ret s | None => UB end).
Proof. unfold on_board. repeat split; try lia; vm_compute; reflexivity. Qed.

(** C02: [new_relative] is [new] seen by the player: for White, the flipped square. *)
Theorem c02_new_relative : forall P f r, is_u8 f -> is_u8 r ->
  sq_new_relative P f r Black = sq_new P f r /\
  (forall s, sq_new P f r = Ret (Some s) ->
     exists t, sq_flip P s = Ret t /\ sq_new_relative P f r White = Ret (Some t)) /\
  (sq_new P f r = Ret None -> sq_new_relative P f r White = Ret None).
Proof. exact c02_new_relative_pf. Qed.
Print Assumptions c02_new_relative.
Example c02_new_relative_ex :
  is_u8 2 /\ is_u8 8 /\ sq_new Debug 2 8 = Ret (Some (Square 17)) /\
  sq_new_relative Debug 2 8 White = Ret (Some (Square 65)).
Proof. unfold is_u8. repeat split; try lia; vm_compute; reflexivity. Qed.

(** C02: [relative_file]/[relative_rank] are the coordinates seen by the player, and invert [new_relative]. *)
Theorem c02_relative_coordinates : forall P s c, valid_square s ->
  exists f r, sq_file P s = Ret f /\ sq_rank P s = Ret r /\
    sq_relative_file P s c = Ret (seen_by c f) /\ sq_relative_rank P s c = Ret (seen_by c r) /\
    sq_new_relative P (seen_by c f) (seen_by c r) c = Ret (Some s).
Proof. exact c02_relative_coordinates_pf. Qed.
Print Assumptions c02_relative_coordinates.
Example c02_relative_coordinates_ex :
  valid_square (Square 17) /\ sq_relative_file Debug (Square 17) White = Ret 8 /\
  sq_relative_rank Debug (Square 17) White = Ret 2.
Proof. unfold valid_square; simpl. repeat split; try lia; vm_compute; reflexivity. Qed.

(** C03: [shift] is exact translation, for every pair of i8 deltas. *)
Theorem c03_shift_translates : forall P f r df dr, on_board f r -> is_i8 df -> is_i8 dr ->
  exists s, sq_new P f r = Ret (Some s) /\
  let f' := (Z.of_N f + df)%Z in let r' := (Z.of_N r + dr)%Z in
  ((1 <= f' <= 9)%Z /\ (1 <= r' <= 9)%Z ->
     exists t, sq_shift P s df dr = Ret (Some t) /\ sq_new P (Z.to_N f') (Z.to_N r') = Ret (Some t)) /\
  (~ ((1 <= f' <= 9)%Z /\ (1 <= r' <= 9)%Z) -> sq_shift P s df dr = Ret None).
Proof. exact c03_shift_translates_pf. Qed.
Print Assumptions c03_shift_translates.
Example c03_shift_translates_ex :
  on_board 9 9 /\ is_i8 127 /\ is_i8 (-128) /\ is_i8 (-8) /\
  sq_shift Debug (Square 81) (-8) (-8) = Ret (Some (Square 1)) /\
  sq_shift Debug (Square 81) 127 127 = Ret None /\ sq_shift Release (Square 1) (-128) 0 = Ret None.
Proof. unfold on_board, is_i8. repeat split; try lia; vm_compute; reflexivity. Qed.

(** C04: [from_u8] succeeds exactly on 1..=81 and [index] inverts it; [array_index] is one less. *)
Theorem c04_from_u8_index : forall P v, is_u8 v ->
  (1 <= v <= 81 ->
     exists s, sq_from_u8 v = Some s /\ valid_square s /\
               sq_index P s = Ret v /\ sq_array_index P s = Ret (v - 1)) /\
  (~ (1 <= v <= 81) -> sq_from_u8 v = None).
Proof. exact c04_from_u8_index_pf. Qed.
Print Assumptions c04_from_u8_index.
Example c04_from_u8_index_ex :
  is_u8 81 /\ is_u8 82 /\ sq_from_u8 81 = Some (Square 81) /\ sq_from_u8 82 = None /\ sq_from_u8 0 = None.
Proof. unfold is_u8. repeat split; try lia; vm_compute; reflexivity. Qed.

(** C04: conversely every square is [from_u8] of its [index]; so indices identify squares. *)
Theorem c04_index_from_u8 : forall P s, valid_square s ->
  exists v, sq_index P s = Ret v /\ 1 <= v <= 81 /\ sq_from_u8 v = Some s /\
            sq_array_index P s = Ret (v - 1) /\ v - 1 < SQUARE_NUM.
Proof. exact c04_index_from_u8_pf. Qed.
Print Assumptions c04_index_from_u8.
Example c04_index_from_u8_ex : valid_square (Square 33) /\ sq_index Release (Square 33) = Ret 33.
Proof. unfold valid_square; simpl. repeat split; try lia; vm_compute; reflexivity. Qed.

(** C04: [Square::all] yields the 81 squares in ascending order of index, each exactly once. *)
Theorem c04_all_lists_every_square :
  exists l, sq_all = Ret l /\ NoDup l /\ (forall s, In s l <-> valid_square s) /\
            forall P, map_res (sq_index P) l = Ret (range 1 82).
Proof. exact c04_all_lists_every_square_pf. Qed.
Print Assumptions c04_all_lists_every_square.
Example c04_all_lists_every_square_ex :
  match sq_all with Ret l => (length l, nth_error l 80) | _ => (O, None) end = (81%nat, Some (Square 81)).
Proof. vm_compute. reflexivity. Qed.

(** C04: [OptionSquare] encodes [None] as 0 and loses nothing. *)
Theorem c04_option_square_round_trip : forall o,
  (forall s, o = Some s -> valid_square s) ->
  os_into (os_from o) = o /\ (os_repr (os_from o) = 0 <-> o = None).
Proof. exact c04_option_square_round_trip_pf. Qed.
Print Assumptions c04_option_square_round_trip.
Example c04_option_square_round_trip_ex :
  (forall s, Some (Square 81) = Some s -> valid_square s) /\ os_into (os_from (Some (Square 81))) = Some (Square 81).
Proof. split; [intros s [= <-]; unfold valid_square; simpl; lia | vm_compute; reflexivity]. Qed.

(** C01/C04: the C interfaces return the same squares. *)
Theorem c04_c_interface : forall P f r c, is_u8 f -> is_u8 r ->
  exists a b, sq_new P f r = Ret a /\ (o <- Square_new P f r;; Ret (os_into o)) = Ret a /\
    sq_new_relative P f r c = Ret b /\ (o <- Square_new_relative P f r c;; Ret (os_into o)) = Ret b.
Proof. exact c04_c_interface_pf. Qed.
Print Assumptions c04_c_interface.
Example c04_c_interface_ex :
  is_u8 5 /\ Square_new Debug 5 5 = Ret (OptionSquare 41) /\ Square_new Debug 5 10 = Ret (OptionSquare 0).
Proof. unfold is_u8. repeat split; try lia; vm_compute; reflexivity. Qed.

(** C02: the C interface of [new_relative] counts from the given player's side. *)
Theorem c02_c_new_relative : forall P f r, is_u8 f -> is_u8 r ->
  (on_board f r -> Square_new_relative P f r Black = Ret (OptionSquare (9 * f + r - 9)) /\
                   Square_new_relative P f r White = Ret (OptionSquare (91 - 9 * f - r))) /\
  (~ on_board f r -> forall c, Square_new_relative P f r c = Ret (OptionSquare 0)).
Proof. exact c02_c_new_relative_pf. Qed.
Print Assumptions c02_c_new_relative.
Example c02_c_new_relative_ex : on_board 7 6 /\ Square_new_relative Debug 7 6 White = Ret (OptionSquare 22) /\ square_at 3 4 = Square 22 /\
  Square_new_relative Release 255 255 White = Ret (OptionSquare 0).
Proof. split; [unfold on_board; lia|]. vm_compute. auto. Qed.

(** C07: [OptionSquare]. *)
Theorem c07_option_square_round_trip : forall o,
  (forall s, o = Some s -> valid_square s) ->
  os_into (os_from o) = o /\ (os_repr (os_from o) = 0 <-> o = None) /\
  (forall o', (forall s, o' = Some s -> valid_square s) -> os_repr (os_from o') = os_repr (os_from o) -> o' = o).
Proof. exact c07_option_square_round_trip_pf. Qed.
Print Assumptions c07_option_square_round_trip.
Example c07_option_square_round_trip_ex :
  (forall s, Some (Square 1) = Some s -> valid_square s) /\ os_from (Some (Square 1)) = OptionSquare 1 /\ os_into (OptionSquare 0) = None.
Proof. split; [intros s [= <-]; unfold valid_square; simpl; lia|]. vm_compute. auto. Qed.
