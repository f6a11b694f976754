(** Lemmas on bitboards. *)
From Verif Require Export LBase LBits LSquare MBitboard SpecBoard.

(** membership as bits *)
Definition member (b : bitboard) (s : square) : bool :=
  if sq_repr s <=? 63 then N.testbit (bb0 b) (sq_repr s - 1) else N.testbit (bb1 b) (sq_repr s - 64).

Lemma bb_contains_ok P b s : valid_square s -> bb_contains P b s = Ret (member b s).
Proof.
  intros H. unfold bb_contains, member. rewrite sq_index_ok by auto. cbn [bind]. unfold valid_square in H.
  rewrite sub_w_ok by lia. cbn [bind].
  destruct (N.ltb_spec (sq_repr s - 1) 63).
  - rewrite shl_w_ok by lia. rewrite shl_one by lia. cbn [bind]. rewrite land_single.
    now replace (sq_repr s <=? 63) with true by lia.
  - rewrite sub_w_ok by lia. cbn [bind]. rewrite shl_w_ok by lia. rewrite shl_one by lia. cbn [bind].
    rewrite land_single. replace (sq_repr s <=? 63) with false by lia. do 2 f_equal. lia.
Qed.

Lemma bb_inj a b : bb0 a = bb0 b -> bb1 a = bb1 b -> a = b.
Proof. destruct a, b; simpl; congruence. Qed.
Lemma bb_eqb_eq a b : bb_eqb a b = true <-> a = b.
Proof.
  unfold bb_eqb. rewrite andb_true_iff, !N.eqb_eq. split; [intros []; now apply bb_inj|intros ->; auto].
Qed.

Lemma member_ext a b : valid_bb a -> valid_bb b ->
  (forall s, valid_square s -> member a s = member b s) -> a = b.
Proof.
  intros (A0 & A1) (B0 & B1) H. apply bb_inj.
  - apply (bits_ext _ _ 63); auto. intros i Hi. specialize (H (Square (i + 1))).
    unfold member, valid_square in H. cbn [sq_repr] in H. replace (i + 1 <=? 63) with true in H by lia.
    replace (i + 1 - 1) with i in H by lia. apply H. lia.
  - apply (bits_ext _ _ 18); auto. intros i Hi. specialize (H (Square (i + 64))).
    unfold member, valid_square in H. cbn [sq_repr] in H. replace (i + 64 <=? 63) with false in H by lia.
    replace (i + 64 - 64) with i in H by lia. apply H. lia.
Qed.

Lemma valid_bb_bits b :
  valid_bb b <-> (forall i, 63 <= i -> N.testbit (bb0 b) i = false) /\ (forall i, 18 <= i -> N.testbit (bb1 b) i = false).
Proof. unfold valid_bb. now rewrite !lt_pow2_bits. Qed.

Lemma bb_empty_valid : valid_bb bb_empty.
Proof. split; vm_compute; reflexivity. Qed.
Lemma member_empty s : member bb_empty s = false.
Proof. unfold member, bb_empty; simpl. destruct (sq_repr s <=? 63); apply N.bits_0. Qed.

Definition single (s : square) : bitboard :=
  if sq_repr s <=? 63 then Bitboard (N.shiftl 1 (sq_repr s - 1)) 0 else Bitboard 0 (N.shiftl 1 (sq_repr s - 64)).
Lemma bb_single_ok P s : valid_square s -> bb_single P s = Ret (single s).
Proof.
  intros H. unfold bb_single, single. rewrite sq_array_index_ok by auto. cbn [bind]. unfold valid_square in H.
  destruct (N.ltb_spec (sq_repr s - 1) 63).
  - rewrite shl_w_ok by lia. rewrite shl_one by lia. cbn [bind]. now replace (sq_repr s <=? 63) with true by lia.
  - rewrite sub_w_ok by lia. cbn [bind]. rewrite shl_w_ok by lia. rewrite shl_one by lia. cbn [bind].
    replace (sq_repr s <=? 63) with false by lia. do 3 f_equal. lia.
Qed.
Lemma single_valid s : valid_square s -> valid_bb (single s).
Proof.
  unfold valid_square, single. intros H. apply valid_bb_bits. destruct (N.leb_spec (sq_repr s) 63); cbn [bb0 bb1];
    (split; intros i Hi; [rewrite ?bit_single, ?N.bits_0|rewrite ?bit_single, ?N.bits_0]); auto; lia.
Qed.
Lemma member_single s t : valid_square s -> valid_square t -> member (single s) t = sq_eqb s t.
Proof.
  unfold valid_square, member, single, sq_eqb. intros Hs Ht.
  destruct (N.leb_spec (sq_repr s) 63), (N.leb_spec (sq_repr t) 63); cbn [bb0 bb1];
    rewrite ?bit_single, ?N.bits_0; lia.
Qed.

(** ** set operations *)
Lemma member_or a b s : member (bb_or a b) s = member a s || member b s.
Proof. unfold member, bb_or; simpl. destruct (sq_repr s <=? 63); apply N.lor_spec. Qed.
Lemma member_and a b s : member (bb_and a b) s = member a s && member b s.
Proof. unfold member, bb_and; simpl. destruct (sq_repr s <=? 63); apply N.land_spec. Qed.
Lemma member_xor a b s : member (bb_xor a b) s = xorb (member a s) (member b s).
Proof. unfold member, bb_xor; simpl. destruct (sq_repr s <=? 63); apply N.lxor_spec. Qed.
Lemma member_andnot a b s : valid_square s -> member (bb_andnot a b) s = negb (member a s) && member b s.
Proof.
  unfold member, bb_andnot, valid_square; simpl. intros H.
  destruct (N.leb_spec (sq_repr s) 63); rewrite N.land_spec, not_w_bits;
    [replace (sq_repr s - 1 <? 64) with true by lia|replace (sq_repr s - 64 <? 64) with true by lia]; auto.
Qed.
Lemma member_not a s : valid_square s -> member (bb_not a) s = negb (member a s).
Proof.
  unfold member, bb_not, valid_square, MASK0, MASK1; cbn [bb0 bb1]. intros H.
  destruct (N.leb_spec (sq_repr s) 63); rewrite N.land_spec, not_w_bits, ones_bits;
    [replace (sq_repr s - 1 <? 64) with true by lia; replace (sq_repr s - 1 <? 63) with true by lia
    |replace (sq_repr s - 64 <? 64) with true by lia; replace (sq_repr s - 64 <? 18) with true by lia]; apply andb_true_r.
Qed.
Lemma or_valid a b : valid_bb a -> valid_bb b -> valid_bb (bb_or a b).
Proof.
  rewrite !valid_bb_bits. intros [A0 A1] [B0 B1]. split; intros i Hi; simpl; rewrite N.lor_spec;
    [rewrite A0, B0|rewrite A1, B1]; auto.
Qed.
Lemma and_valid a b : valid_bb a -> valid_bb b -> valid_bb (bb_and a b).
Proof.
  rewrite !valid_bb_bits. intros [A0 A1] [B0 B1]. split; intros i Hi; simpl; rewrite N.land_spec;
    [rewrite A0, B0|rewrite A1, B1]; auto.
Qed.
Lemma xor_valid a b : valid_bb a -> valid_bb b -> valid_bb (bb_xor a b).
Proof.
  rewrite !valid_bb_bits. intros [A0 A1] [B0 B1]. split; intros i Hi; simpl; rewrite N.lxor_spec;
    [rewrite A0, B0|rewrite A1, B1]; auto.
Qed.
Lemma andnot_valid a b : valid_bb b -> valid_bb (bb_andnot a b).
Proof.
  rewrite !valid_bb_bits. intros [B0 B1]. split; intros i Hi; simpl; rewrite N.land_spec;
    [rewrite B0|rewrite B1]; auto using andb_false_r.
Qed.
Lemma not_valid a : valid_bb (bb_not a).
Proof.
  rewrite !valid_bb_bits. unfold bb_not, MASK0, MASK1. cbn [bb0 bb1]. split; intros i Hi; rewrite N.land_spec, ones_bits.
  - replace (i <? 63) with false by lia. apply andb_false_r.
  - replace (i <? 18) with false by lia. apply andb_false_r.
Qed.

(** ** cardinality *)
Definition members (b : bitboard) : list square := filter (member b) all_squares.

Lemma filter_map_comm {A B} (f : A -> B) (g : B -> bool) l : filter g (map f l) = map f (filter (fun x => g (f x)) l).
Proof. induction l; simpl; auto. destruct (g (f a)); simpl; now rewrite IHl. Qed.
Lemma range_split a b c : a <= b -> b <= c -> range a c = range a b ++ range b c.
Proof.
  intros H1 H2. unfold range. replace (N.to_nat (c - a)) with (N.to_nat (b - a) + N.to_nat (c - b))%nat by lia.
  rewrite seq_app, map_app. f_equal.
  replace (0 + N.to_nat (b - a))%nat with (N.to_nat (b - a) + 0)%nat by lia.
  generalize (N.to_nat (c - b)), 0%nat. intros n. induction n; intros k; simpl; auto. f_equal; [lia|].
  rewrite <- IHn. do 2 f_equal. lia.
Qed.
Lemma range_shift a b d : range (a + d) (b + d) = map (fun x => x + d) (range a b).
Proof.
  unfold range. rewrite map_map. replace (b + d - (a + d)) with (b - a) by lia. apply map_ext. intros. lia.
Qed.
Lemma filter_length_map {A B} (f : A -> B) (g : B -> bool) l :
  length (filter g (map f l)) = length (filter (fun x => g (f x)) l).
Proof. now rewrite filter_map_comm, map_length. Qed.

Lemma count_ones_low x w : x < 2 ^ w -> w <= 64 -> count_ones64 x = N.of_nat (length (filter (N.testbit x) (range 0 w))).
Proof.
  intros H Hw. unfold count_ones64. f_equal. rewrite (range_split 0 w 64), filter_app, app_length by lia.
  replace (filter (N.testbit x) (range w 64)) with (@nil N); [simpl; lia|].
  symmetry. apply length_zero_iff_nil.
  assert (forall l, (forall i, In i l -> N.testbit x i = false) -> length (filter (N.testbit x) l) = 0%nat) as A.
  { induction l; simpl; intros E; auto. rewrite E; auto. }
  apply A. intros i Hi. apply range_In in Hi. apply (bits_high x w); lia.
Qed.

Lemma count_members b : valid_bb b -> count_ones64 (bb0 b) + count_ones64 (bb1 b) = N.of_nat (length (members b)).
Proof.
  intros (H0 & H1). rewrite (count_ones_low _ 63), (count_ones_low _ 18) by (auto; lia).
  unfold members. rewrite all_squares_eq, (range_split 1 64 82), map_app, filter_app, app_length by lia.
  rewrite Nat2N.inj_add. f_equal; f_equal.
  - change (range 1 64) with (range (0 + 1) (63 + 1)). rewrite range_shift, map_map, filter_length_map.
    apply (f_equal (@length _)). apply filter_ext_in. intros i Hi. apply range_In in Hi. unfold member. cbn [sq_repr].
    replace (i + 1 <=? 63) with true by lia. f_equal. lia.
  - change (range 64 82) with (range (0 + 64) (18 + 64)). rewrite range_shift, map_map, filter_length_map.
    apply (f_equal (@length _)). apply filter_ext_in. intros i Hi. apply range_In in Hi. unfold member. cbn [sq_repr].
    replace (i + 64 <=? 63) with false by lia. f_equal. lia.
Qed.
Lemma filter_length_le' {A} (f : A -> bool) l : (length (filter f l) <= length l)%nat.
Proof. induction l; simpl; auto. destruct (f a); simpl; lia. Qed.
Lemma members_length b : (length (members b) <= 81)%nat.
Proof. unfold members. pose proof (filter_length_le' (member b) all_squares). exact H. Qed.
Lemma bb_count_ok P b : valid_bb b -> bb_count P b = Ret (N.of_nat (length (members b))).
Proof.
  intros H. unfold bb_count. pose proof (count_members b H). pose proof (members_length b).
  rewrite add_w_ok by (change (2 ^ 32) with 4294967296; lia). cbn [bind]. unfold cast_w, modulus. change (2 ^ 8) with 256.
  rewrite N.mod_small by lia. f_equal. lia.
Qed.
Lemma members_In b s : In s (members b) <-> valid_square s /\ member b s = true.
Proof. unfold members. rewrite filter_In, valid_square_In. tauto. Qed.
Lemma members_NoDup b : NoDup (members b).
Proof. apply NoDup_filter, all_squares_NoDup. Qed.

Lemma bb_is_empty_ok b : bb_is_empty b = true <-> b = bb_empty.
Proof.
  unfold bb_is_empty. rewrite andb_true_iff, !N.eqb_eq. split; [intros []; now apply bb_inj|intros ->; auto].
Qed.

(** ** u128 *)
Lemma to_u128_ok P b : bb0 b < 2 ^ 64 -> bb1 b < 2 ^ 64 -> bb_to_u128 P b = Ret (bb1 b * 2 ^ 64 + bb0 b).
Proof.
  intros H0 H1. unfold bb_to_u128. rewrite shl_w_ok by lia. cbn [bind].
  rewrite N.mod_small; [now rewrite lor_shift_add|]. rewrite N.shiftl_mul_pow2.
  change (2 ^ 128) with (2 ^ 64 * 2 ^ 64). apply N.mul_lt_mono_pos_r; auto. vm_compute; reflexivity.
Qed.
Lemma from_u128_ok P a : bb_from_u128_unchecked P a = Ret (Bitboard (a mod 2 ^ 64) ((a / 2 ^ 64) mod 2 ^ 64)).
Proof.
  unfold bb_from_u128_unchecked. rewrite shr_w_ok by lia. cbn [bind]. unfold cast_w, modulus.
  now rewrite N.shiftr_div_pow2.
Qed.
Lemma u128_split x y : x < 2 ^ 64 -> y < 2 ^ 64 ->
  (y * 2 ^ 64 + x) mod 2 ^ 64 = x /\ ((y * 2 ^ 64 + x) / 2 ^ 64) mod 2 ^ 64 = y.
Proof.
  intros Hx Hy. assert (2 ^ 64 <> 0) by (apply N.pow_nonzero; lia). split.
  - rewrite N.add_comm, N.mod_add by auto. now apply N.mod_small.
  - rewrite N.add_comm, N.div_add, (N.div_small x) by auto. simpl. now apply N.mod_small.
Qed.
Lemma pow63_64 x : x < 2 ^ 63 -> x < 2 ^ 64.
Proof. intros. apply N.lt_trans with (2 ^ 63); auto. vm_compute; reflexivity. Qed.
Lemma pow18_64 x : x < 2 ^ 18 -> x < 2 ^ 64.
Proof. intros. apply N.lt_trans with (2 ^ 18); auto. vm_compute; reflexivity. Qed.
Lemma valid_bb_u64 b : valid_bb b -> u64_pair (bb0 b) (bb1 b).
Proof. intros []. split; auto using pow63_64, pow18_64. Qed.

Lemma u128_bits x y i : x < 2 ^ 64 ->
  N.testbit (y * 2 ^ 64 + x) i = if i <? 64 then N.testbit x i else N.testbit y (i - 64).
Proof.
  intros Hx. rewrite <- lor_shift_add by auto. rewrite N.lor_spec. destruct (N.ltb_spec i 64).
  - now rewrite N.shiftl_spec_low.
  - rewrite N.shiftl_spec_high' by auto. rewrite (bits_high x 64) by auto. apply orb_false_r.
Qed.

(** ** pop *)
Lemma trailing_zeros_ptz p : trailing_zeros128 (Npos p) = ptz p.
Proof. simpl. induction p; simpl; congruence. Qed.

Definition remove (b : bitboard) (s : square) : bitboard :=
  Bitboard (if sq_repr s <=? 63 then N.ldiff (bb0 b) (N.shiftl 1 (sq_repr s - 1)) else bb0 b)
           (if sq_repr s <=? 63 then bb1 b else N.ldiff (bb1 b) (N.shiftl 1 (sq_repr s - 64))).
Lemma member_remove b s t : valid_square s -> valid_square t ->
  member (remove b s) t = member b t && negb (sq_eqb s t).
Proof.
  unfold valid_square, member, remove, sq_eqb. intros Hs Ht.
  destruct (N.leb_spec (sq_repr s) 63), (N.leb_spec (sq_repr t) 63); cbn [bb0 bb1];
    rewrite ?N.ldiff_spec, ?bit_single;
    (replace (sq_repr s =? sq_repr t) with false by lia; symmetry; apply andb_true_r) || (f_equal; f_equal; lia).
Qed.
Lemma remove_valid b s : valid_bb b -> valid_bb (remove b s).
Proof.
  rewrite !valid_bb_bits. intros [B0 B1]. unfold remove. cbn [bb0 bb1].
  split; intros i Hi; destruct (sq_repr s <=? 63); rewrite ?N.ldiff_spec; rewrite ?B0, ?B1; auto.
Qed.

Lemma bb_pop_empty P : bb_pop P bb_empty = Ret (bb_empty, None).
Proof. destruct P; vm_compute; reflexivity. Qed.

Lemma bb_pop_ok P b : valid_bb b -> b <> bb_empty ->
  exists s, bb_pop P b = Ret (remove b s, Some s) /\ valid_square s /\ member b s = true /\
    (forall t, valid_square t -> sq_repr t < sq_repr s -> member b t = false).
Proof.
  intros V NE. pose proof (valid_bb_u64 b V) as [U0 U1]. pose proof V as V'. rewrite valid_bb_bits in V'. destruct V' as [V0 V1].
  unfold bb_pop. rewrite to_u128_ok by auto. cbn [bind].
  remember (bb1 b * 2 ^ 64 + bb0 b) as r eqn:Er.
  assert (Rb : forall i, N.testbit r i = if i <? 64 then N.testbit (bb0 b) i else N.testbit (bb1 b) (i - 64))
    by (intros i; rewrite Er; now apply u128_bits).
  destruct r as [|p].
  { exfalso. apply NE. apply bb_inj; simpl; assert (2 ^ 64 <> 0) by (apply N.pow_nonzero; lia); nia. }
  replace (N.pos p =? 0) with false by reflexivity.
  rewrite trailing_zeros_ptz. pose proof (ptz_set p) as Z1. pose proof (ptz_below p) as Z2.
  rewrite Rb in Z1.
  assert (Zb : ptz p <> 63 /\ ptz p < 82).
  { destruct (N.ltb_spec (ptz p) 64).
    - split; [|lia]. intros E. rewrite E, V0 in Z1 by lia. discriminate.
    - split; [lia|]. destruct (N.lt_ge_cases (ptz p) 82); auto. rewrite V1 in Z1 by lia. discriminate. }
  set (s := Square (if ptz p <? 63 then ptz p + 1 else ptz p)).
  assert (Vs : valid_square s) by (unfold valid_square, s; cbn [sq_repr]; destruct (N.ltb_spec (ptz p) 63); lia).
  exists s.
  assert (Ms : member b s = true).
  { unfold member, s; cbn [sq_repr]. destruct (N.ltb_spec (ptz p) 63).
    - replace (ptz p + 1 <=? 63) with true by lia. replace (ptz p <? 64) with true in Z1 by lia.
      now replace (ptz p + 1 - 1) with (ptz p) by lia.
    - replace (ptz p <=? 63) with false by lia. now replace (ptz p <? 64) with false in Z1 by lia. }
  assert (E1 : (if ptz p <? 63 then v <- add_w P 8 (cast_w 8 (ptz p)) 1;; sq_from_u8_unchecked v
                else sq_from_u8_unchecked (cast_w 8 (ptz p))) = Ret s).
  { unfold cast_w, modulus. change (2 ^ 8) with 256. rewrite N.mod_small by lia.
    unfold s. destruct (N.ltb_spec (ptz p) 63).
    - rewrite add_w_ok by (change (2 ^ 8) with 256; lia). cbn [bind]. apply sq_from_u8_unchecked_ok. lia.
    - apply sq_from_u8_unchecked_ok. lia. }
  rewrite E1. cbn [bind].
  assert (E2 : (if debug_assertions P then (c <- bb_contains P b s;; debug_assert P c) else Ret tt) = Ret tt).
  { rewrite bb_contains_ok, Ms by auto. now destruct P. }
  rewrite E2. cbn [bind]. rewrite from_u128_ok. cbn [bind].
  assert (R128 : N.pos p < 2 ^ 128).
  { rewrite Er. change (2 ^ 128) with (2 ^ 64 * 2 ^ 64). set (m := 2 ^ 64) in *. nia. }
  replace (wrapping_sub_w 128 (N.pos p) 1) with (N.pos p - 1).
  2:{ unfold wrapping_sub_w, modulus. replace (N.pos p + 2 ^ 128 - 1) with (N.pos p - 1 + 1 * 2 ^ 128) by lia.
      rewrite N.mod_add by (apply N.pow_nonzero; lia). rewrite N.mod_small; auto. lia. }
  split; [|split; [auto|split; [auto|]]].
  - do 2 f_equal. apply bb_inj; cbn [bb0 bb1]; apply N.bits_inj; intros i.
    + destruct (N.lt_ge_cases i 64).
      * rewrite N.mod_pow2_bits_low, clear_lowest, Rb by auto. replace (i <? 64) with true by lia.
        unfold remove, s; cbn [bb0 sq_repr]. destruct (N.ltb_spec (ptz p) 63).
        -- replace (ptz p + 1 <=? 63) with true by lia. rewrite N.ldiff_spec, bit_single.
           f_equal. f_equal. f_equal. lia.
        -- replace (ptz p <=? 63) with false by lia. replace (i =? ptz p) with false by lia. apply andb_true_r.
      * rewrite N.mod_pow2_bits_high by auto. unfold remove; cbn [bb0]. symmetry.
        destruct (sq_repr s <=? 63); rewrite ?N.ldiff_spec; rewrite V0 by lia; auto.
    + destruct (N.lt_ge_cases i 64).
      * rewrite N.mod_pow2_bits_low by auto. rewrite <- N.shiftr_div_pow2, shr_bits, clear_lowest, Rb.
        replace (i + 64 <? 64) with false by lia. replace (i + 64 - 64) with i by lia.
        unfold remove, s; cbn [bb1 sq_repr]. destruct (N.ltb_spec (ptz p) 63).
        -- replace (ptz p + 1 <=? 63) with true by lia. replace (i + 64 =? ptz p) with false by lia. apply andb_true_r.
        -- replace (ptz p <=? 63) with false by lia. rewrite N.ldiff_spec, bit_single. f_equal. f_equal. lia.
      * rewrite N.mod_pow2_bits_high by auto. unfold remove; cbn [bb1]. symmetry.
        destruct (sq_repr s <=? 63); rewrite ?N.ldiff_spec; rewrite V1 by lia; auto.
  - intros t Vt Lt. unfold member. unfold valid_square in Vt. unfold s in Lt; cbn [sq_repr] in Lt.
    destruct (N.leb_spec (sq_repr t) 63).
    + assert (sq_repr t - 1 < ptz p) as L by (destruct (N.ltb_spec (ptz p) 63); lia).
      apply Z2 in L. rewrite Rb in L. now replace (sq_repr t - 1 <? 64) with true in L by lia.
    + assert (sq_repr t < ptz p) as L by (destruct (N.ltb_spec (ptz p) 63); lia).
      apply Z2 in L. rewrite Rb in L. now replace (sq_repr t <? 64) with false in L by lia.
Qed.

(** ** iteration *)
Lemma all_squares_ascending : ascending all_squares.
Proof.
  rewrite all_squares_eq. unfold range. generalize (N.to_nat (82 - 1)), 0%nat.
  intros n. induction n; intros k; simpl; auto. split; auto.
  intros u H. apply in_map_iff in H as (x & <- & H). apply in_map_iff in H as (j & <- & H). apply in_seq in H. simpl. lia.
Qed.
Lemma ascending_filter f l : ascending l -> ascending (filter f l).
Proof.
  induction l as [|a l IH]; simpl; auto. intros [H1 H2]. destruct (f a); simpl; auto. split; auto.
  intros u Hu. apply filter_In in Hu. now apply H1.
Qed.
Lemma filter_remove_head (f g : square -> bool) s l : ascending l -> In s l -> f s = true ->
  (forall t, In t l -> sq_repr t < sq_repr s -> f t = false) ->
  (forall t, In t l -> g t = f t && negb (sq_eqb s t)) ->
  filter f l = s :: filter g l.
Proof.
  induction l as [|a l IH]; simpl; [tauto|]. intros [H1 H2] I Fs Lo Hg.
  destruct (sq_eqb s a) eqn:E.
  - apply sq_eqb_eq in E. subst a. rewrite Fs. rewrite (Hg s), sq_eqb_refl, andb_false_r by auto. f_equal.
    apply filter_ext_in. intros t Ht. rewrite Hg by auto. destruct (sq_eqb s t) eqn:X; [|now rewrite andb_true_r].
    apply sq_eqb_eq in X. subst t. specialize (H1 s Ht). lia.
  - destruct I as [->|I]; [rewrite sq_eqb_refl in E; discriminate|].
    rewrite (Hg a), E by auto. rewrite (Lo a) by auto. simpl. apply IH; auto.
Qed.
Lemma pop_members P b : valid_bb b -> b <> bb_empty ->
  exists s b', bb_pop P b = Ret (b', Some s) /\ valid_bb b' /\ members b = s :: members b'.
Proof.
  intros V NE. destruct (bb_pop_ok P b V NE) as (s & E & Vs & Ms & Lo). exists s, (remove b s).
  split; auto. split; [now apply remove_valid|]. apply filter_remove_head; auto.
  - apply all_squares_ascending.
  - now apply valid_square_In.
  - intros t Ht. apply Lo. now apply valid_square_In.
  - intros t Ht. apply member_remove; auto. now apply valid_square_In.
Qed.
Lemma members_empty : members bb_empty = [].
Proof. reflexivity. Qed.
Lemma bb_dec (a b : bitboard) : a = b \/ a <> b.
Proof. destruct (bb_eqb a b) eqn:E; [left; now apply bb_eqb_eq|right; intros H; apply bb_eqb_eq in H; congruence]. Qed.
Lemma collect_ok P : forall fuel b, valid_bb b -> (length (members b) < fuel)%nat ->
  bb_collect P fuel b = Ret (Some (bb_empty, members b)).
Proof.
  induction fuel as [|n IH]; intros b V H; [lia|]. cbn [bb_collect]. unfold bb_next.
  destruct (bb_dec b bb_empty) as [->|NE].
  - rewrite bb_pop_empty. reflexivity.
  - destruct (pop_members P b V NE) as (s & b' & E & V' & M). rewrite E. cbn [bind].
    rewrite M in H. simpl in H. rewrite IH by (auto; lia). cbn [bind]. now rewrite M.
Qed.

(** ** flip *)
Lemma reverse_bits_spec x i : N.testbit (reverse_bits64 x) i = (i <? 64) && N.testbit x (63 - i).
Proof.
  unfold reverse_bits64. rewrite fold_lor_bits, N.bits_0, orb_false_l.
  destruct (N.ltb_spec i 64) as [L|L].
  - rewrite (existsb_range_unique 0 64 _ (63 - i)).
    + replace ((0 <=? 63 - i) && (63 - i <? 64)) with true by lia.
      destruct (N.testbit x (63 - i)); [|apply N.bits_0]. rewrite bit_single. simpl. lia.
    + intros k Hk Hn. destruct (N.testbit x k); [|apply N.bits_0]. rewrite bit_single. lia.
  - rewrite andb_false_l. apply not_true_iff_false. rewrite existsb_exists. intros (k & I & E). apply range_In in I.
    destruct (N.testbit x k); [rewrite bit_single in E; lia|rewrite N.bits_0 in E; discriminate].
Qed.
Lemma bb_flip_ok P b : exists b', bb_flip P b = Ret b' /\ (valid_bb b -> valid_bb b') /\
  (valid_bb b -> forall s, valid_square s -> member b' (rotate s) = member b s).
Proof.
  unfold bb_flip. rewrite shr_w_ok, !shl_w_ok by lia. cbn [bind]. eexists. split; [reflexivity|]. split; intros V.
  - rewrite valid_bb_bits in *. destruct V as [V0 V1]. cbn [bb0 bb1]. split; intros i Hi; rewrite reverse_bits_spec.
    + destruct (N.ltb_spec i 64); auto. replace i with 63 by lia. rewrite N.land_spec, not_w_bits. simpl andb.
      change (63 - 63) with 0. simpl. apply andb_false_r.
    + destruct (N.ltb_spec i 64); auto. rewrite shl_bits. replace (46 <=? 63 - i) with false by lia.
      now rewrite andb_false_r.
  - rewrite valid_bb_bits in V. destruct V as [V0 V1].
    intros s Vs. unfold member. pose proof (rotate_valid s Vs). rewrite rotate_repr by auto. unfold valid_square in *.
    cbn [bb0 bb1]. rewrite !reverse_bits_spec.
    destruct (N.leb_spec (82 - sq_repr s) 63).
    + replace (82 - sq_repr s - 1 <? 64) with true by lia. rewrite N.land_spec, N.lor_spec, shr_bits, shl_bits, not_w_bits.
      replace (63 - (82 - sq_repr s - 1) <? 64) with true by lia.
      assert (N.testbit 1 (63 - (82 - sq_repr s - 1)) = false) as ->.
      { transitivity (63 - (82 - sq_repr s - 1) =? 0); [apply (bit_single 0)|lia]. }
      simpl andb. rewrite andb_true_r. destruct (N.leb_spec (sq_repr s) 63).
      * replace (46 <=? 63 - (82 - sq_repr s - 1)) with false by lia. simpl. rewrite orb_false_r. f_equal. lia.
      * replace (46 <=? 63 - (82 - sq_repr s - 1)) with true by lia. rewrite V0 by lia. simpl. f_equal. lia.
    + replace (82 - sq_repr s - 64 <? 64) with true by lia. rewrite shl_bits.
      replace (63 - (82 - sq_repr s - 64) <? 64) with true by lia.
      replace (46 <=? 63 - (82 - sq_repr s - 64)) with true by lia. simpl andb.
      replace (sq_repr s <=? 63) with true by lia. f_equal. lia.
Qed.
