(** Property theorems C12-C20: bitboards *)
From Verif Require Import TBitboard.

(** C12: [contains] always answers; the empty board contains nothing and [single] exactly its square. *)
Theorem c12_empty_single : forall P s t, valid_square s -> valid_square t ->
  bb_contains P bb_empty t = Ret false /\
  exists b, bb_single P s = Ret b /\ valid_bb b /\
    bb_contains P b s = Ret true /\ (t <> s -> bb_contains P b t = Ret false).
Proof. exact c12_empty_single_pf. Qed.
Print Assumptions c12_empty_single.
Example c12_empty_single_ex :
  valid_square (square_at 8 1) /\ bb_single Debug (square_at 8 1) = Ret (Bitboard 0 1) /\
  bb_contains Debug (Bitboard 0 1) (square_at 8 1) = Ret true /\ bb_contains Debug (Bitboard 0 1) (square_at 7 9) = Ret false.
Proof. split; [unfold valid_square; vm_compute; split; discriminate|]. vm_compute; auto. Qed.

(** C12: the operators are union, intersection, symmetric difference, complement and (not self) and other. *)
Theorem c12_set_algebra : forall P a b s, valid_bb a -> valid_bb b -> valid_square s ->
  exists x y, bb_contains P a s = Ret x /\ bb_contains P b s = Ret y /\
    bb_contains P (bb_or a b) s = Ret (x || y) /\
    bb_contains P (bb_and a b) s = Ret (x && y) /\
    bb_contains P (bb_xor a b) s = Ret (xorb x y) /\
    bb_contains P (bb_andnot a b) s = Ret (negb x && y) /\
    bb_contains P (bb_not a) s = Ret (negb x).
Proof. exact c12_set_algebra_pf. Qed.
Print Assumptions c12_set_algebra.
Example c12_set_algebra_ex :
  let a := Bitboard 5 1 in let b := Bitboard 6 2 in valid_bb a /\ valid_bb b /\
  map (fun s => bb_contains Debug (bb_xor a b) s) [Square 1; Square 2; Square 3; Square 64; Square 65; Square 66]
    = [Ret true; Ret true; Ret false; Ret true; Ret true; Ret false] /\
  bb_contains Debug (bb_andnot a b) (Square 2) = Ret true /\ bb_contains Debug (bb_andnot a b) (Square 1) = Ret false.
Proof. split; [split; reflexivity|]. split; [split; reflexivity|]. vm_compute; auto. Qed.

(** C12: the results are valid bitboards. *)
Theorem c12_results_valid : forall a b, valid_bb a -> valid_bb b ->
  valid_bb bb_empty /\ valid_bb (bb_or a b) /\ valid_bb (bb_and a b) /\ valid_bb (bb_xor a b) /\
  valid_bb (bb_andnot a b) /\ valid_bb (bb_not a).
Proof. exact c12_results_valid_pf. Qed.
Print Assumptions c12_results_valid.
Example c12_results_valid_ex : valid_bb (Bitboard 5 1) /\ bb_not (Bitboard 5 1) = Bitboard 9223372036854775802 262142 /\
  ~ valid_bb (Bitboard (2 ^ 63) 0) /\ ~ valid_bb (Bitboard 0 (2 ^ 18)).
Proof. split; [split; reflexivity|]. split; [vm_compute; reflexivity|]. split; intros [H0 H1]; vm_compute in H0, H1; discriminate. Qed.

(** C12: the assign operators with a square insert it, keep only it, or toggle it. *)
Theorem c12_square_assign : forall P a s, valid_bb a -> valid_square s ->
  exists o n x, bb_or_square P a s = Ret o /\ bb_and_square P a s = Ret n /\ bb_xor_square P a s = Ret x /\
    valid_bb o /\ valid_bb n /\ valid_bb x /\
    forall t, valid_square t ->
      bb_contains P o t = (if sq_eqb t s then Ret true else bb_contains P a t) /\
      bb_contains P n t = (if sq_eqb t s then bb_contains P a t else Ret false) /\
      bb_contains P x t = (y <- bb_contains P a t;; Ret (if sq_eqb t s then negb y else y)).
Proof. exact c12_square_assign_pf. Qed.
Print Assumptions c12_square_assign.
Example c12_square_assign_ex : valid_bb (Bitboard 5 1) /\ valid_square (Square 2) /\ valid_square (Square 64) /\
  bb_or_square Release (Bitboard 5 1) (Square 2) = Ret (Bitboard 7 1) /\
  bb_and_square Release (Bitboard 5 1) (Square 3) = Ret (Bitboard 4 0) /\
  bb_xor_square Release (Bitboard 5 1) (Square 64) = Ret (Bitboard 5 0).
Proof. split; [split; reflexivity|]. do 2 (split; [split; discriminate|]). vm_compute; auto. Qed.

(** C12: the valid bitboards (the set the theorems quantify over) are exactly those that can be built. *)
Theorem c12_built_iff_valid : forall P b, built P b <-> valid_bb b.
Proof. exact c12_built_iff_valid_pf. Qed.
Print Assumptions c12_built_iff_valid.
Example c12_built_iff_valid_ex : built Debug (bb_not (bb_or bb_empty (Bitboard 0 1))) /\ ~ built Debug (Bitboard (2 ^ 63) 1).
Proof.
  split.
  - apply built_not, built_or; [constructor|]. apply (built_single Debug (Square 64)); [split; discriminate|vm_compute; reflexivity].
  - rewrite c12_built_iff_valid. intros [H _]. vm_compute in H. discriminate.
Qed.

(** C13: two valid bitboards are == iff they contain the same squares (and then they are the same value). *)
Theorem c13_eq_is_set_equality : forall P a b, valid_bb a -> valid_bb b ->
  (bb_eqb a b = true <-> forall s, valid_square s -> bb_contains P a s = bb_contains P b s) /\
  (bb_eqb a b = true <-> a = b).
Proof. exact c13_eq_is_set_equality_pf. Qed.
Print Assumptions c13_eq_is_set_equality.
Example c13_eq_is_set_equality_ex : valid_bb (Bitboard 5 1) /\ valid_bb (Bitboard 5 2) /\ valid_bb (bb_or (Bitboard 4 0) (Bitboard 1 1)) /\
  bb_eqb (bb_or (Bitboard 4 0) (Bitboard 1 1)) (Bitboard 5 1) = true /\ bb_eqb (Bitboard 5 1) (Bitboard 5 2) = false /\
  bb_contains Debug (Bitboard 5 1) (Square 64) = Ret true /\ bb_contains Debug (Bitboard 5 2) (Square 64) = Ret false.
Proof. do 3 (split; [split; reflexivity|]). vm_compute; auto. Qed.

(** C13: [count] is the number of squares contained: the length of any list that has each of them exactly once. *)
Theorem c13_count_is_cardinality : forall P b l, valid_bb b -> NoDup l ->
  (forall s, In s l <-> valid_square s /\ bb_contains P b s = Ret true) ->
  bb_count P b = Ret (N.of_nat (length l)).
Proof. exact c13_count_is_cardinality_pf. Qed.
Print Assumptions c13_count_is_cardinality.
Example c13_count_is_cardinality_ex : valid_bb (Bitboard 5 1) /\ NoDup [Square 64; Square 1; Square 3] /\
  (forall s, In s [Square 64; Square 1; Square 3] <-> valid_square s /\ bb_contains Debug (Bitboard 5 1) s = Ret true) /\
  bb_count Debug (Bitboard 5 1) = Ret 3.
Proof.
  split; [split; reflexivity|]. split; [repeat constructor; simpl; intuition discriminate|]. split; [|reflexivity]. intros s. split.
  - simpl. intros [<-|[<-|[<-|[]]]]; (split; [split; discriminate|vm_compute; reflexivity]).
  - intros [V H]. revert H.
    assert (S : forallb (fun s => match bb_contains Debug (Bitboard 5 1) s with
                | Ret true => existsb (sq_eqb s) [Square 64; Square 1; Square 3] | _ => true end) all_squares = true)
      by (vm_compute; reflexivity).
    rewrite forallb_forall in S. specialize (S s (proj1 (valid_square_In s) V)). intros E. rewrite E in S.
    apply existsb_exists in S as (t & I & Q). apply sq_eqb_eq in Q. now subst t.
Qed.

(** C13: such a list exists for every board, so the previous theorem is never empty; and [is_empty] iff nothing is contained iff the count is 0. *)
Theorem c13_count_total : forall P b, valid_bb b ->
  exists l, NoDup l /\ (forall s, In s l <-> valid_square s /\ bb_contains P b s = Ret true) /\ (length l <= 81)%nat /\
    bb_count P b = Ret (N.of_nat (length l)) /\
    (bb_is_empty b = true <-> l = []) /\ (bb_is_empty b = true <-> bb_count P b = Ret 0).
Proof. exact c13_count_total_pf. Qed.
Print Assumptions c13_count_total.
Example c13_count_total_ex : valid_bb (bb_not bb_empty) /\ bb_count Debug (bb_not bb_empty) = Ret 81 /\
  bb_is_empty (bb_not bb_empty) = false /\ bb_is_empty bb_empty = true.
Proof. split; [split; reflexivity|]. vm_compute; auto. Qed.

(** C14: [pop] on the empty board returns [None] and changes nothing. *)
Theorem c14_pop_empty : forall P b, valid_bb b -> (forall s, valid_square s -> bb_contains P b s = Ret false) ->
  bb_pop P b = Ret (b, None) /\ Bitboard_pop P b = Ret (b, os_from None).
Proof. exact c14_pop_empty_pf. Qed.
Print Assumptions c14_pop_empty.
Example c14_pop_empty_ex : valid_bb (Bitboard 0 0) /\ (forall s, valid_square s -> bb_contains Release (Bitboard 0 0) s = Ret false) /\
  bb_pop Release (Bitboard 0 0) = Ret (Bitboard 0 0, None).
Proof. split; [split; reflexivity|]. split; [|reflexivity]. intros s Hs. now rewrite bb_contains_ok, member_empty. Qed.

(** C14: otherwise it returns the member of least index and removes exactly that member. *)
Theorem c14_pop_least_member : forall P b, valid_bb b -> (exists s, valid_square s /\ bb_contains P b s = Ret true) ->
  exists s b', bb_pop P b = Ret (b', Some s) /\ Bitboard_pop P b = Ret (b', os_from (Some s)) /\
    valid_square s /\ valid_bb b' /\ bb_contains P b s = Ret true /\
    (forall t, valid_square t -> bb_contains P b t = Ret true -> sq_repr s <= sq_repr t) /\
    (forall t, valid_square t -> bb_contains P b' t = if sq_eqb t s then Ret false else bb_contains P b t).
Proof. exact c14_pop_least_member_pf. Qed.
Print Assumptions c14_pop_least_member.
Example c14_pop_least_member_ex : valid_bb (Bitboard 20 1) /\ (exists s, valid_square s /\ bb_contains Debug (Bitboard 20 1) s = Ret true) /\
  bb_pop Debug (Bitboard 20 1) = Ret (Bitboard 16 1, Some (Square 3)) /\ bb_pop Debug (Bitboard 0 6) = Ret (Bitboard 0 4, Some (Square 65)).
Proof. split; [split; reflexivity|]. split; [exists (Square 64); split; [split; discriminate|vm_compute; reflexivity]|]. vm_compute; auto. Qed.

(** C14: iterating until [None] yields the members, in strictly ascending order of index, [count] items, and leaves the empty board;
    [size_hint] bounds the number of items. 82 calls of [next] always suffice. *)
Theorem c14_iteration : forall P b fuel, valid_bb b -> (82 <= fuel)%nat ->
  exists l, bb_collect P fuel b = Ret (Some (bb_empty, l)) /\ ascending l /\
    (forall s, In s l <-> valid_square s /\ bb_contains P b s = Ret true) /\
    bb_count P b = Ret (N.of_nat (length l)) /\
    (fst (bb_size_hint b) <= N.of_nat (length l) /\
     forall u, snd (bb_size_hint b) = Some u -> N.of_nat (length l) <= u).
Proof. exact c14_iteration_pf. Qed.
Print Assumptions c14_iteration.
Example c14_iteration_ex : valid_bb (Bitboard 20 1) /\
  bb_collect Debug 82 (Bitboard 20 1) = Ret (Some (bb_empty, [Square 3; Square 5; Square 64])).
Proof. split; [split; reflexivity|]. vm_compute; reflexivity. Qed.

(** C15: [flip] rotates the set. *)
Theorem c15_flip : forall P b, valid_bb b ->
  exists b', bb_flip P b = Ret b' /\ valid_bb b' /\
    (forall s, valid_square s -> exists t, sq_flip P s = Ret t /\ bb_contains P b' t = bb_contains P b s) /\
    bb_count P b' = bb_count P b /\ bb_flip P b' = Ret b.
Proof. exact c15_flip_pf. Qed.
Print Assumptions c15_flip.
Example c15_flip_ex : valid_bb (Bitboard 1 2) /\ bb_flip Debug (Bitboard 1 2) = Ret (Bitboard 65536 131072) /\
  sq_flip Debug (square_at 1 1) = Ret (square_at 9 9) /\ bb_contains Debug (Bitboard 65536 131072) (square_at 9 9) = Ret true.
Proof. split; [split; reflexivity|]. vm_compute; auto. Qed.

(** C16: [shift_down] moves every member by [d] ranks down. *)
Theorem c16_shift_down : forall P b d, valid_bb b -> d <= 9 ->
  exists b', bb_shift_down P b d = Ret b' /\ valid_bb b' /\
    forall f r, on_board f r ->
      bb_contains P b' (square_at f r) = if d <? r then bb_contains P b (square_at f (r - d)) else Ret false.
Proof. exact c16_shift_down_pf. Qed.
Print Assumptions c16_shift_down.
Example c16_shift_down_ex : valid_bb (Bitboard (2 ^ 44 + 1) 0) /\ (* 1A and 5I *)
  bb_shift_down Debug (Bitboard (2 ^ 44 + 1) 0) 1 = Ret (Bitboard 2 0) /\
  bb_contains Debug (Bitboard (2 ^ 44 + 1) 0) (square_at 5 9) = Ret true /\ bb_contains Debug (Bitboard 2 0) (square_at 1 2) = Ret true.
Proof. split; [split; reflexivity|]. vm_compute; auto. Qed.

(** C16: [shift_up] moves every member by [d] ranks up. *)
Theorem c16_shift_up : forall P b d, valid_bb b -> d <= 9 ->
  exists b', bb_shift_up P b d = Ret b' /\ valid_bb b' /\
    forall f r, on_board f r ->
      bb_contains P b' (square_at f r) = if r + d <=? 9 then bb_contains P b (square_at f (r + d)) else Ret false.
Proof. exact c16_shift_up_pf. Qed.
Print Assumptions c16_shift_up.
Example c16_shift_up_ex : valid_bb (Bitboard (2 ^ 44 + 1) 0) /\ (* 1A and 5I *)
  bb_shift_up Debug (Bitboard (2 ^ 44 + 1) 0) 3 = Ret (Bitboard (2 ^ 41) 0) /\
  bb_contains Debug (Bitboard (2 ^ 41) 0) (square_at 5 6) = Ret true.
Proof. split; [split; reflexivity|]. vm_compute; auto. Qed.

(** C16: [shift_left] moves every member by [d] files to the left (to the higher file numbers). *)
Theorem c16_shift_left : forall P b d, valid_bb b -> d <= 9 ->
  exists b', bb_shift_left P b d = Ret b' /\ valid_bb b' /\
    forall f r, on_board f r ->
      bb_contains P b' (square_at f r) = if d <? f then bb_contains P b (square_at (f - d) r) else Ret false.
Proof. exact c16_shift_left_pf. Qed.
Print Assumptions c16_shift_left.
Example c16_shift_left_ex : valid_bb (Bitboard (2 ^ 44 + 1) 1) /\ (* 1A, 5I and 8A *)
  bb_shift_left Debug (Bitboard (2 ^ 44 + 1) 1) 4 = Ret (Bitboard (2 ^ 36) (2 ^ 17)) /\
  bb_contains Debug (Bitboard (2 ^ 36) (2 ^ 17)) (square_at 5 1) = Ret true /\ bb_contains Debug (Bitboard (2 ^ 36) (2 ^ 17)) (square_at 9 9) = Ret true.
Proof. split; [split; reflexivity|]. vm_compute; auto. Qed.

(** C17: [contains] of the result of [shift_right] is right for every delta, and the result is a valid bitboard iff
    it is not the case that delta = 0 and 8A is a member, or delta = 1 and 9A is a member. Missing for the full C17:
    validity in these two cases, which is false ([c17_shift_right_refuted]). *)
Theorem c17_shift_right_partial : forall P b d, valid_bb b -> d <= 9 ->
  exists b', bb_shift_right P b d = Ret b' /\
    (forall f r, on_board f r ->
      bb_contains P b' (square_at f r) = if f + d <=? 9 then bb_contains P b (square_at (f + d) r) else Ret false) /\
    (valid_bb b' <-> ~ (d = 0 /\ bb_contains P b (square_at 8 1) = Ret true) /\
                     ~ (d = 1 /\ bb_contains P b (square_at 9 1) = Ret true)).
Proof. exact c17_shift_right_partial_pf. Qed.
Print Assumptions c17_shift_right_partial.
Example c17_shift_right_partial_ex : valid_bb (Bitboard (2 ^ 44 + 1) 1) /\ (* 1A, 5I and 8A *)
  bb_shift_right Debug (Bitboard (2 ^ 44 + 1) 1) 4 = Ret (Bitboard (2 ^ 27 + 2 ^ 8) 0) /\
  bb_contains Debug (Bitboard (2 ^ 27 + 2 ^ 8) 0) (square_at 4 1) = Ret true /\ bb_contains Debug (Bitboard (2 ^ 27 + 2 ^ 8) 0) (square_at 1 9) = Ret true.
Proof. split; [split; reflexivity|]. vm_compute; auto. Qed.

(** C17 is false of the code: shifting the single square 9A right by one file gives a board that contains exactly 8A but
    is not == to the board of 8A, counts two squares, makes [pop] panic in a build with debug assertions and return 7I, which is not
    contained, in any other. Shifting {8A} by zero files is not the identity either. *)
Theorem c17_shift_right_refuted : exists b e b', valid_bb b /\ valid_bb e /\
  (forall P, bb_single P (square_at 9 1) = Ret b /\ bb_single P (square_at 8 1) = Ret e) /\
  (forall P, bb_shift_right P b 1 = Ret b' /\ bb_count P b' = Ret 2 /\
     forall s, valid_square s -> bb_contains P b' s = bb_contains P e s) /\
  ~ valid_bb b' /\ bb_eqb b' e = false /\
  (forall P, debug_assertions P = true -> bb_pop P b' = Panic) /\
  (forall P, debug_assertions P = false ->
     exists r, bb_pop P b' = Ret (r, Some (square_at 7 9)) /\ bb_contains P b' (square_at 7 9) = Ret false) /\
  (forall P, exists z, bb_shift_right P e 0 = Ret z /\ bb_eqb z e = false).
Proof. exact c17_shift_right_refuted_pf. Qed.
Print Assumptions c17_shift_right_refuted.
Example c17_shift_right_refuted_ex :
  bb_shift_right Debug (Bitboard 0 512) 1 = Ret (Bitboard 9223372036854775808 1) /\ bb_single Debug (square_at 9 1) = Ret (Bitboard 0 512).
Proof. vm_compute; auto. Qed.

(** C18: [from_file_unchecked] under its safety conditions. *)
Theorem c18_from_file : forall P file pattern, 1 <= file <= 9 -> pattern < 512 ->
  exists b, bb_from_file_unchecked P file pattern = Ret b /\ valid_bb b /\
    forall f r, on_board f r -> bb_contains P b (square_at f r) = Ret ((f =? file) && N.testbit pattern (r - 1)).
Proof. exact c18_from_file_pf. Qed.
Print Assumptions c18_from_file.
Example c18_from_file_ex : exists b, bb_from_file_unchecked Debug 8 257 = Ret b /\
  bb_contains Debug b (square_at 8 1) = Ret true /\ bb_contains Debug b (square_at 8 9) = Ret true /\ bb_count Debug b = Ret 2.
Proof. eexists. split; [vm_compute; reflexivity|]. vm_compute; auto. Qed.

(** C18: [get_file_unchecked] reads the pattern of any file of any board. *)
Theorem c18_get_file : forall P b file, 1 <= file <= 9 ->
  exists p, bb_get_file_unchecked P b file = Ret p /\ p < 512 /\
    forall r, 1 <= r <= 9 -> bb_contains P b (square_at file r) = Ret (N.testbit p (r - 1)).
Proof. exact c18_get_file_pf. Qed.
Print Assumptions c18_get_file.
Example c18_get_file_ex : bb_get_file_unchecked Debug (Bitboard 0 6) 8 = Ret 6 /\
  bb_contains Debug (Bitboard 0 6) (square_at 8 2) = Ret true /\ bb_contains Debug (Bitboard 0 6) (square_at 8 1) = Ret false.
Proof. vm_compute; auto. Qed.

(** C18: reading back what was written; the other files are empty. *)
Theorem c18_file_round_trip : forall P file file' pattern, 1 <= file <= 9 -> 1 <= file' <= 9 -> pattern < 512 ->
  exists b, bb_from_file_unchecked P file pattern = Ret b /\
    bb_get_file_unchecked P b file' = Ret (if file' =? file then pattern else 0).
Proof. exact c18_file_round_trip_pf. Qed.
Print Assumptions c18_file_round_trip.
Example c18_file_round_trip_ex : exists b, bb_from_file_unchecked Release 7 511 = Ret b /\
  bb_get_file_unchecked Release b 7 = Ret 511 /\ bb_get_file_unchecked Release b 8 = Ret 0.
Proof. eexists. split; [vm_compute; reflexivity|]. vm_compute; auto. Qed.

(** C18: the nine patterns determine the board. *)
Theorem c18_files_determine_board : forall P a b, valid_bb a -> valid_bb b ->
  (forall file, 1 <= file <= 9 -> bb_get_file_unchecked P a file = bb_get_file_unchecked P b file) -> a = b.
Proof. exact c18_files_determine_board_pf. Qed.
Print Assumptions c18_files_determine_board.
Example c18_files_determine_board_ex : valid_bb (Bitboard 513 1) /\ valid_bb (bb_or (Bitboard 512 1) (Bitboard 1 0)) /\
  (forall file, 1 <= file <= 9 -> bb_get_file_unchecked Debug (Bitboard 513 1) file = bb_get_file_unchecked Debug (bb_or (Bitboard 512 1) (Bitboard 1 0)) file) /\
  map (bb_get_file_unchecked Debug (Bitboard 513 1)) [1; 2; 3; 8; 9] = [Ret 1; Ret 1; Ret 0; Ret 1; Ret 0] /\
  bb_get_file_unchecked Debug (Bitboard 513 2) 8 = Ret 2.
Proof. do 2 (split; [split; reflexivity|]). split; [intros; reflexivity|]. vm_compute; auto. Qed.

(** C19: byte swapping is an involution in both directions (on all pairs of words), and different boards have different swapped forms. *)
Theorem c19_swap_involution : forall b s, u64_pair (bb0 b) (bb1 b) -> u64_pair (bs0 s) (bs1 s) ->
  bs_swap_bytes (bb_swap_bytes b) = b /\ bb_swap_bytes (bs_swap_bytes s) = s /\
  u64_pair (bs0 (bb_swap_bytes b)) (bs1 (bb_swap_bytes b)).
Proof. exact c19_swap_involution_pf. Qed.
Print Assumptions c19_swap_involution.
Example c19_swap_involution_ex : u64_pair 258 3 /\ bb_swap_bytes (Bitboard 258 3) <> ByteSwapped 258 3 /\
  bs_swap_bytes (bb_swap_bytes (Bitboard 258 3)) = Bitboard 258 3.
Proof. split; [split; reflexivity|]. split; [vm_compute; discriminate|vm_compute; reflexivity]. Qed.

(** C19: the operations on swapped boards are those on the boards. *)
Theorem c19_swap_commutes : forall a b,
  bb_swap_bytes (bb_or a b) = bs_or (bb_swap_bytes a) (bb_swap_bytes b) /\
  bb_swap_bytes (bb_and a b) = bs_and (bb_swap_bytes a) (bb_swap_bytes b) /\
  bb_swap_bytes (bb_xor a b) = bs_xor (bb_swap_bytes a) (bb_swap_bytes b) /\
  bb_swap_bytes (bb_andnot a b) = bs_andnot (bb_swap_bytes a) (bb_swap_bytes b).
Proof. exact c19_swap_commutes_pf. Qed.
Print Assumptions c19_swap_commutes.
Example c19_swap_commutes_ex :
  bb_swap_bytes (bb_andnot (Bitboard 5 1) (Bitboard 6 2)) = ByteSwapped (2 ^ 57) (2 ^ 57).
Proof. vm_compute; reflexivity. Qed.

(** C19: the 128-bit value of the swapped board is the byte reversal of that of the board. *)
Theorem c19_swap_reverses_bytes : forall P b, u64_pair (bb0 b) (bb1 b) ->
  exists v w, bb_to_u128 P b = Ret v /\ bs_to_u128 P (bb_swap_bytes b) = Ret w /\
    forall k, k < 16 -> byte_of w k = byte_of v (15 - k).
Proof. exact c19_swap_reverses_bytes_pf. Qed.
Print Assumptions c19_swap_reverses_bytes.
Example c19_swap_reverses_bytes_ex : u64_pair 258 3 /\
  (v <- bb_to_u128 Debug (Bitboard 258 3);; w <- bs_to_u128 Debug (bb_swap_bytes (Bitboard 258 3));;
   Ret (map (byte_of v) [0; 1; 8], map (byte_of w) [15; 14; 7])) = Ret ([2; 1; 3], [2; 1; 3]).
Proof. split; [split; reflexivity|]. vm_compute; reflexivity. Qed.

(** C20: the 128-bit representation round-trips and identifies the board; its value is word1 * 2^64 + word0. *)
Theorem c20_u128_round_trip : forall P b, u64_pair (bb0 b) (bb1 b) ->
  exists v, bb_to_u128 P b = Ret v /\ v < 2 ^ 128 /\ bb_from_u128_unchecked P v = Ret b /\
    forall b', u64_pair (bb0 b') (bb1 b') -> bb_to_u128 P b' = Ret v -> b' = b.
Proof. exact c20_u128_round_trip_pf. Qed.
Print Assumptions c20_u128_round_trip.
Example c20_u128_round_trip_ex : u64_pair 5 3 /\ bb_to_u128 Debug (Bitboard 5 3) = Ret (3 * 2 ^ 64 + 5) /\
  bb_from_u128_unchecked Debug (3 * 2 ^ 64 + 5) = Ret (Bitboard 5 3).
Proof. split; [split; reflexivity|]. vm_compute; auto. Qed.

(** C20: the same for [ByteSwappedBitboard]. *)
Theorem c20_swapped_u128_round_trip : forall P b, u64_pair (bs0 b) (bs1 b) ->
  exists v, bs_to_u128 P b = Ret v /\ v < 2 ^ 128 /\ bs_from_u128_unchecked P v = Ret b /\
    forall b', u64_pair (bs0 b') (bs1 b') -> bs_to_u128 P b' = Ret v -> b' = b.
Proof. exact c20_swapped_u128_round_trip_pf. Qed.
Print Assumptions c20_swapped_u128_round_trip.
Example c20_swapped_u128_round_trip_ex : u64_pair 5 3 /\ bs_to_u128 Debug (ByteSwapped 5 3) = Ret (3 * 2 ^ 64 + 5) /\
  bs_from_u128_unchecked Debug (3 * 2 ^ 64 + 5) = Ret (ByteSwapped 5 3).
Proof. split; [split; reflexivity|]. vm_compute; auto. Qed.

(** C20: in the 128-bit representation, bit index-1 (files 1-7) or bit index (files 8, 9) is the membership of the square, and no other bit is set. *)
Theorem c20_u128_bits : forall P b, valid_bb b ->
  exists v, bb_to_u128 P b = Ret v /\
    (forall s, valid_square s ->
       bb_contains P b s = Ret (N.testbit v (if sq_repr s <=? 63 then sq_repr s - 1 else sq_repr s))) /\
    N.testbit v 63 = false /\ (forall i, 82 <= i -> N.testbit v i = false).
Proof. exact c20_u128_bits_pf. Qed.
Print Assumptions c20_u128_bits.
Example c20_u128_bits_ex : valid_bb (Bitboard 5 3) /\ exists v, bb_to_u128 Debug (Bitboard 5 3) = Ret v /\
  map (N.testbit v) [0; 1; 2; 64; 65; 66] = [true; false; true; true; true; false].
Proof. split; [split; reflexivity|]. eexists. split; vm_compute; reflexivity. Qed.
