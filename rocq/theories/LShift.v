(** Lemmas on the shifts, file patterns and byte order of bitboards. *)
From Verif Require Export LBitboard.

Ltac split_cmp :=
  repeat match goal with
         | |- context [?a <? ?b] => destruct (N.ltb_spec a b); try (exfalso; lia)
         | |- context [?a <=? ?b] => destruct (N.leb_spec a b); try (exfalso; lia)
         | |- context [?a =? ?b] => destruct (N.eqb_spec a b); try (exfalso; lia)
         end;
  rewrite ?andb_true_r, ?andb_false_r, ?orb_false_r, ?orb_true_r, ?andb_true_l, ?andb_false_l, ?orb_false_l, ?orb_true_l.

Lemma member_at b f r : on_board f r ->
  member b (square_at f r) = if f <=? 7 then N.testbit (bb0 b) (9 * (f - 1) + (r - 1)) else N.testbit (bb1 b) (9 * (f - 8) + (r - 1)).
Proof.
  unfold on_board, member, square_at. cbn [sq_repr]. intros H. split_cmp; f_equal; lia.
Qed.

Lemma sweep_delta_bit (f : N -> N -> bool) w :
  forallb (fun d => forallb (f d) (range 0 w)) (range 0 10) = true ->
  forall d i, d <= 9 -> i < w -> f d i = true.
Proof.
  intros H d i Hd Hi. rewrite forallb_forall in H. specialize (H d (proj2 (range_In 0 10 d) ltac:(lia))).
  rewrite forallb_forall in H. apply H. apply range_In. lia.
Qed.
Lemma sweep_delta (f : N -> bool) : forallb f (range 0 10) = true -> forall d, d <= 9 -> f d = true.
Proof. intros H d Hd. rewrite forallb_forall in H. apply H, range_In. lia. Qed.

Definition top := 0x8040201008040200.
Definition bottom := 0x40201008040201.
Notation down_mask d := (top - N.shiftr top (9 - d)).
Notation up_mask d := (N.shiftl bottom (9 - d) - bottom).
Lemma down_mask_ok d : d <= 9 -> N.shiftr top (9 - d) <= top /\ down_mask d < 2 ^ 63.
Proof.
  intros H. pose proof (sweep_delta (fun d => (N.shiftr top (9 - d) <=? top) && (down_mask d <? 2 ^ 63))
    ltac:(vm_compute; reflexivity) d H) as E. simpl in E. apply andb_prop in E as [E1 E2].
  apply N.leb_le in E1. apply N.ltb_lt in E2. auto.
Qed.
Lemma down_mask_bits d i : d <= 9 -> i < 63 -> N.testbit (down_mask d) i = (d <=? i mod 9).
Proof.
  intros Hd Hi. pose proof (sweep_delta_bit (fun d i => Bool.eqb (N.testbit (down_mask d) i) (d <=? i mod 9)) 63
    ltac:(vm_compute; reflexivity) d i Hd Hi) as E. now apply eqb_prop.
Qed.
Lemma up_mask_ok d : d <= 9 -> N.shiftl bottom (9 - d) < 2 ^ 64 /\ bottom <= N.shiftl bottom (9 - d) /\ up_mask d < 2 ^ 63.
Proof.
  intros H. pose proof (sweep_delta (fun d => (N.shiftl bottom (9 - d) <? 2 ^ 64) && (bottom <=? N.shiftl bottom (9 - d)) && (up_mask d <? 2 ^ 63))
    ltac:(vm_compute; reflexivity) d H) as E. apply andb_prop in E as [E1 E2]. apply andb_prop in E1 as [E1 E3].
  apply N.leb_le in E3. apply N.ltb_lt in E2, E1. auto.
Qed.
Lemma up_mask_bits d i : d <= 9 -> i < 63 -> N.testbit (up_mask d) i = (i mod 9 + d <=? 8).
Proof.
  intros Hd Hi. pose proof (sweep_delta_bit (fun d i => Bool.eqb (N.testbit (up_mask d) i) (i mod 9 + d <=? 8)) 63
    ltac:(vm_compute; reflexivity) d i Hd Hi) as E. now apply eqb_prop.
Qed.

(** ** the four shifts *)
Lemma shift_down_ok P b d : valid_bb b -> d <= 9 ->
  exists b', bb_shift_down P b d = Ret b' /\ valid_bb b' /\
    forall f r, on_board f r -> member b' (square_at f r) = if d <? r then member b (square_at f (r - d)) else false.
Proof.
  intros V Hd. pose proof V as V'. rewrite valid_bb_bits in V'. destruct V' as [V0 V1].
  destruct (down_mask_ok d Hd) as [M1 M2].
  unfold bb_shift_down. rewrite debug_assert_true by lia. cbn [bind]. fold top.
  rewrite sub_w_ok by lia. cbn [bind]. rewrite shr_w_ok by lia. cbn [bind]. rewrite sub_w_ok by auto. cbn [bind].
  rewrite !shl_w_ok by lia. cbn [bind]. eexists. split; [reflexivity|]. split.
  - apply valid_bb_bits. cbn [bb0 bb1]. split; intros i Hi; rewrite N.land_spec.
    + rewrite (bits_high (down_mask d) 63) by auto. apply andb_false_r.
    + rewrite shl_bits, !cast_bits. destruct (N.ltb_spec i 32); [|reflexivity]. simpl andb.
      rewrite down_mask_bits by lia. destruct (N.leb_spec d (i mod 9)); [|apply andb_false_r].
      rewrite (V1 (i - d)) by lia. now rewrite andb_false_r, andb_false_r.
  - intros f r H. assert (H' : d < r -> on_board f (r - d)) by (unfold on_board in *; lia).
    rewrite member_at by auto. unfold on_board in H. cbn [bb0 bb1].
    destruct (N.leb_spec f 7).
    + rewrite N.land_spec, shl_bits, down_mask_bits by lia.
      destruct (N.ltb_spec d r).
      * rewrite member_at by auto. split_cmp; f_equal; lia.
      * split_cmp; reflexivity.
    + rewrite N.land_spec, shl_bits, !cast_bits, down_mask_bits by lia.
      destruct (N.ltb_spec d r).
      * rewrite member_at by auto. split_cmp; f_equal; lia.
      * split_cmp; reflexivity.
Qed.

Lemma shift_up_ok P b d : valid_bb b -> d <= 9 ->
  exists b', bb_shift_up P b d = Ret b' /\ valid_bb b' /\
    forall f r, on_board f r -> member b' (square_at f r) = if r + d <=? 9 then member b (square_at f (r + d)) else false.
Proof.
  intros V Hd. pose proof V as V'. rewrite valid_bb_bits in V'. destruct V' as [V0 V1].
  destruct (up_mask_ok d Hd) as (M0 & M1 & M2).
  unfold bb_shift_up. rewrite debug_assert_true by lia. cbn [bind]. fold bottom.
  rewrite sub_w_ok by lia. cbn [bind]. rewrite shl_w_ok by lia. cbn [bind]. rewrite N.mod_small by auto.
  rewrite sub_w_ok by auto. cbn [bind].
  rewrite !shr_w_ok by lia. cbn [bind]. eexists. split; [reflexivity|]. split.
  - apply valid_bb_bits. cbn [bb0 bb1]. split; intros i Hi; rewrite N.land_spec.
    + rewrite (bits_high (up_mask d) 63) by auto. apply andb_false_r.
    + rewrite shr_bits, cast_bits. rewrite (V1 (i + d)) by lia. now rewrite andb_false_r.
  - intros f r H. assert (H' : r + d <= 9 -> on_board f (r + d)) by (unfold on_board in *; lia).
    rewrite member_at by auto. unfold on_board in H. cbn [bb0 bb1].
    destruct (N.leb_spec f 7).
    + rewrite N.land_spec, shr_bits, up_mask_bits by lia.
      destruct (N.leb_spec (r + d) 9).
      * rewrite member_at by auto. split_cmp; f_equal; lia.
      * split_cmp; reflexivity.
    + rewrite N.land_spec, shr_bits, !cast_bits, up_mask_bits by lia.
      destruct (N.leb_spec (r + d) 9).
      * rewrite member_at by auto. split_cmp; f_equal; lia.
      * split_cmp; reflexivity.
Qed.

Lemma mask0_bits i : N.testbit MASK0 i = (i <? 63).
Proof. apply ones_bits. Qed.
Lemma mask1_bits i : N.testbit MASK1 i = (i <? 18).
Proof. apply ones_bits. Qed.

Ltac kill V0 V1 :=
  split_cmp;
  repeat match goal with
         | |- context [N.testbit ?x ?i] => first [rewrite (V0 i) by lia | rewrite (V1 i) by lia]
         end;
  rewrite ?andb_true_r, ?andb_false_r, ?orb_false_r, ?orb_true_r, ?andb_true_l, ?andb_false_l, ?orb_false_l, ?orb_true_l;
  first [reflexivity | f_equal; lia].
Ltac side := change (2 ^ 8) with 256; lia.

Lemma shift_left_ok P b d : valid_bb b -> d <= 9 ->
  exists b', bb_shift_left P b d = Ret b' /\ valid_bb b' /\
    forall f r, on_board f r -> member b' (square_at f r) = if d <? f then member b (square_at (f - d) r) else false.
Proof.
  intros V Hd. pose proof V as V'. rewrite valid_bb_bits in V'. destruct V' as [V0 V1].
  unfold bb_shift_left. rewrite debug_assert_true by lia. cbn [bind].
  destruct (N.leb_spec d 1); [|destruct (N.leb_spec d 7)].
  - rewrite mul_w_ok by side. cbn [bind]. rewrite !shl_w_ok by lia. cbn [bind]. rewrite sub_w_ok by lia. cbn [bind].
    rewrite shr_w_ok by lia. cbn [bind]. eexists. split; [reflexivity|]. split.
    + apply valid_bb_bits. cbn [bb0 bb1]. split; intros i Hi; rewrite N.land_spec, ?mask0_bits, ?mask1_bits; split_cmp; auto.
    + intros f r B. assert (B' : d < f -> on_board (f - d) r) by (unfold on_board in *; lia).
      rewrite member_at by auto. unfold on_board in B. cbn [bb0 bb1].
      rewrite !N.land_spec, N.lor_spec, mask0_bits, mask1_bits, !shl_bits, !shr_bits.
      destruct (N.ltb_spec d f) as [L|L]; [rewrite member_at by auto|].
      * kill V0 V1.
      * split_cmp; reflexivity.
  - rewrite mul_w_ok by side. cbn [bind]. rewrite !shl_w_ok by lia. cbn [bind]. rewrite sub_w_ok by lia. cbn [bind].
    rewrite shr_w_ok by lia. cbn [bind]. eexists. split; [reflexivity|]. split.
    + apply valid_bb_bits. cbn [bb0 bb1]. split; intros i Hi; rewrite N.land_spec, ?mask0_bits, ?mask1_bits; split_cmp; auto.
    + intros f r B. assert (B' : d < f -> on_board (f - d) r) by (unfold on_board in *; lia).
      rewrite member_at by auto. unfold on_board in B. cbn [bb0 bb1].
      rewrite !N.land_spec, mask0_bits, mask1_bits, !shl_bits, !shr_bits.
      destruct (N.ltb_spec d f) as [L|L]; [rewrite member_at by auto|].
      * kill V0 V1.
      * split_cmp; reflexivity.
  - rewrite mul_w_ok by side. cbn [bind]. rewrite sub_w_ok by lia. cbn [bind]. rewrite !shl_w_ok by lia. cbn [bind].
    eexists. split; [reflexivity|]. split.
    + apply valid_bb_bits. cbn [bb0 bb1]. split; intros i Hi; rewrite ?N.land_spec, ?mask0_bits, ?mask1_bits, ?N.bits_0; split_cmp; auto.
    + intros f r B. assert (B' : d < f -> on_board (f - d) r) by (unfold on_board in *; lia).
      rewrite member_at by auto. unfold on_board in B. cbn [bb0 bb1].
      rewrite !N.land_spec, mask1_bits, !shl_bits, N.bits_0.
      destruct (N.ltb_spec d f) as [L|L]; [rewrite member_at by auto|].
      * kill V0 V1.
      * split_cmp; reflexivity.
Qed.

(** [shift_right]: membership is right; the result is a valid bitboard except in two cases *)
Lemma shift_right_ok P b d : valid_bb b -> d <= 9 ->
  exists b', bb_shift_right P b d = Ret b' /\
    (valid_bb b' <-> ~ (d = 0 /\ member b (square_at 8 1) = true) /\ ~ (d = 1 /\ member b (square_at 9 1) = true)) /\
    (bb0 b' < 2 ^ 64 /\ bb1 b' < 2 ^ 18) /\
    forall f r, on_board f r -> member b' (square_at f r) = if f + d <=? 9 then member b (square_at (f + d) r) else false.
Proof.
  intros V Hd. pose proof V as V'. rewrite valid_bb_bits in V'. destruct V' as [V0 V1].
  unfold bb_shift_right. rewrite debug_assert_true by lia. cbn [bind].
  rewrite !member_at by (unfold on_board; lia). simpl (8 <=? 7). simpl (9 <=? 7).
  destruct (N.leb_spec d 1); [|destruct (N.leb_spec d 7)].
  - rewrite mul_w_ok by side. cbn [bind]. rewrite !shr_w_ok by lia. cbn [bind]. rewrite sub_w_ok by lia. cbn [bind].
    rewrite shl_w_ok by lia. cbn [bind]. eexists. split; [reflexivity|]. split; [|split].
    + rewrite valid_bb_bits. cbn [bb0 bb1]. split.
      * intros [W0 W1]. specialize (W0 63 ltac:(lia)). rewrite N.lor_spec, shr_bits, shl_bits in W0.
        apply orb_false_iff in W0 as [_ W0].
        split; intros [E1 E2]; subst d.
        -- change (N.testbit (bb1 b) 0 = false) in W0. change (N.testbit (bb1 b) 0 = true) in E2. congruence.
        -- change (N.testbit (bb1 b) 9 = false) in W0. change (N.testbit (bb1 b) 9 = true) in E2. congruence.
      * intros [N0 N1]. split; intros i Hi.
        -- rewrite N.lor_spec, shr_bits, shl_bits. rewrite V0 by lia. rewrite orb_false_l.
           destruct (N.ltb_spec i 64); [|reflexivity]. replace i with 63 by lia. split_cmp.
           assert (D : d = 0 \/ d = 1) by lia. destruct D as [-> | ->].
           ++ apply not_true_is_false. intros E. apply N0. split; [reflexivity|exact E].
           ++ apply not_true_is_false. intros E. apply N1. split; [reflexivity|exact E].
        -- rewrite shr_bits. apply V1. lia.
    + split; apply lt_pow2_bits; cbn [bb0 bb1]; intros i Hi; rewrite ?N.lor_spec, shr_bits, ?shl_bits.
      * rewrite V0 by lia. split_cmp; reflexivity.
      * apply V1. lia.
    + intros f r B. assert (B' : f + d <= 9 -> on_board (f + d) r) by (unfold on_board in *; lia).
      rewrite member_at by auto. unfold on_board in B. cbn [bb0 bb1].
      rewrite !N.lor_spec, !shl_bits, !shr_bits.
      destruct (N.leb_spec (f + d) 9) as [L|L]; [rewrite member_at by auto|].
      * kill V0 V1.
      * kill V0 V1.
  - rewrite mul_w_ok by side. cbn [bind]. rewrite !shr_w_ok by lia. cbn [bind]. rewrite sub_w_ok by lia. cbn [bind].
    rewrite shl_w_ok by lia. cbn [bind]. eexists. split; [reflexivity|].
    match goal with |- (valid_bb ?x <-> _) /\ _ => assert (valid_bb x) as VV end.
    { rewrite valid_bb_bits. cbn [bb0 bb1]. split; intros i Hi; [|apply N.bits_0].
      rewrite N.lor_spec, shr_bits, shl_bits. rewrite V0 by lia. rewrite orb_false_l.
      destruct (N.ltb_spec i 64); [|reflexivity]. rewrite (V1 (i - (63 - 9 * d))) by lia. split_cmp; reflexivity. }
    split; [split; [intros _; split; intros [E1 _]; lia|auto]|]. split; [split; [apply pow63_64|]; apply VV|].
    intros f r B. assert (B' : f + d <= 9 -> on_board (f + d) r) by (unfold on_board in *; lia).
    rewrite member_at by auto. unfold on_board in B. cbn [bb0 bb1].
    rewrite !N.lor_spec, !shl_bits, !shr_bits, N.bits_0.
    destruct (N.leb_spec (f + d) 9) as [L|L]; [rewrite member_at by auto|].
    + kill V0 V1.
    + kill V0 V1.
  - rewrite mul_w_ok by side. cbn [bind]. rewrite sub_w_ok by lia. cbn [bind]. rewrite !shr_w_ok by lia. cbn [bind].
    eexists. split; [reflexivity|].
    match goal with |- (valid_bb ?x <-> _) /\ _ => assert (valid_bb x) as VV end.
    { rewrite valid_bb_bits. cbn [bb0 bb1]. split; intros i Hi; [|apply N.bits_0]. rewrite shr_bits. apply V1. lia. }
    split; [split; [intros _; split; intros [E1 _]; lia|auto]|]. split; [split; [apply pow63_64|]; apply VV|].
    intros f r B. assert (B' : f + d <= 9 -> on_board (f + d) r) by (unfold on_board in *; lia).
    rewrite member_at by auto. unfold on_board in B. cbn [bb0 bb1].
    rewrite !shr_bits, N.bits_0.
    destruct (N.leb_spec (f + d) 9) as [L|L]; [rewrite member_at by auto|].
    + kill V0 V1.
    + kill V0 V1.
Qed.

(** ** files *)
Lemma from_file_ok P file pattern : 1 <= file <= 9 -> pattern < 512 ->
  exists b, bb_from_file_unchecked P file pattern = Ret b /\ valid_bb b /\
    forall f r, on_board f r -> member b (square_at f r) = (f =? file) && N.testbit pattern (r - 1).
Proof.
  intros Hf Hp. assert (HP : forall i, 9 <= i -> N.testbit pattern i = false) by (apply lt_pow2_bits; exact Hp).
  unfold bb_from_file_unchecked. destruct (N.leb_spec file 7).
  - rewrite sub_w_ok by lia. cbn [bind]. rewrite mul_w_ok by side. cbn [bind]. rewrite shl_w_ok by lia. cbn [bind].
    eexists. split; [reflexivity|]. split.
    + apply valid_bb_bits. cbn [bb0 bb1]. split; intros i Hi; [|apply N.bits_0].
      rewrite shl_bits, HP by lia. apply andb_false_r.
    + intros f r B. rewrite member_at by auto. unfold on_board in B. cbn [bb0 bb1]. rewrite shl_bits, N.bits_0.
      destruct (N.eqb_spec f file) as [->|D].
      * split_cmp; f_equal; lia.
      * split_cmp; try reflexivity. apply HP. lia.
  - rewrite sub_w_ok by lia. cbn [bind]. rewrite mul_w_ok by side. cbn [bind]. rewrite shl_w_ok by lia. cbn [bind].
    eexists. split; [reflexivity|]. split.
    + apply valid_bb_bits. cbn [bb0 bb1]. split; intros i Hi; [apply N.bits_0|].
      rewrite shl_bits, HP by lia. apply andb_false_r.
    + intros f r B. rewrite member_at by auto. unfold on_board in B. cbn [bb0 bb1]. rewrite shl_bits, N.bits_0.
      destruct (N.eqb_spec f file) as [->|D].
      * split_cmp; f_equal; lia.
      * split_cmp; try reflexivity. apply HP. lia.
Qed.
Lemma get_file_ok P b file : 1 <= file <= 9 ->
  exists p, bb_get_file_unchecked P b file = Ret p /\ p < 512 /\
    forall r, 1 <= r <= 9 -> N.testbit p (r - 1) = member b (square_at file r).
Proof.
  intros Hf. unfold bb_get_file_unchecked.
  assert (E : (if file <=? 7 then a <- sub_w P 8 file 1;; n <- mul_w P 8 a 9;; shr_w P 64 (bb0 b) n
               else a <- sub_w P 8 file 8;; n <- mul_w P 8 a 9;; shr_w P 64 (bb1 b) n)
          = Ret (if file <=? 7 then N.shiftr (bb0 b) ((file - 1) * 9) else N.shiftr (bb1 b) ((file - 8) * 9))).
  { destruct (N.leb_spec file 7); rewrite sub_w_ok by lia; cbn [bind]; rewrite mul_w_ok by side; cbn [bind];
      now rewrite shr_w_ok by lia. }
  rewrite E. cbn [bind]. eexists. split; [reflexivity|]. change 511 with (2 ^ 9 - 1). split.
  - change 512 with (2 ^ 9). apply lt_pow2_bits. intros i Hi. rewrite N.land_spec, ones_bits. split_cmp; reflexivity.
  - intros r Hr. rewrite N.land_spec, ones_bits, cast_bits, member_at by (unfold on_board; lia).
    destruct (N.leb_spec file 7); rewrite shr_bits; split_cmp; f_equal; lia.
Qed.

(** ** byte order *)
Lemma shl_byte_bits x k j i : k < 8 -> j < 8 ->
  N.testbit (N.shiftl (N.land (N.shiftr x (8 * k)) 255) (8 * j)) i =
  (i / 8 =? j) && N.testbit x (8 * k + i mod 8).
Proof.
  intros Hk Hj. destruct (N.lt_ge_cases i (8 * j)).
  - rewrite N.shiftl_spec_low by auto. split_cmp; reflexivity.
  - rewrite N.shiftl_spec_high' by auto. change 255 with (2 ^ 8 - 1). rewrite N.land_spec, shr_bits, ones_bits.
    split_cmp; try reflexivity. f_equal. lia.
Qed.
Lemma swap_bytes_bits x i : N.testbit (swap_bytes64 x) i = (i <? 64) && N.testbit x (8 * (7 - i / 8) + i mod 8).
Proof.
  unfold swap_bytes64. rewrite fold_lor_bits, N.bits_0, orb_false_l.
  rewrite (existsb_range_unique 0 8 _ (7 - i / 8)).
  - rewrite shl_byte_bits by lia. destruct (N.ltb_spec i 64).
    + replace ((0 <=? 7 - i / 8) && (7 - i / 8 <? 8)) with true by lia.
      replace (i / 8 =? 7 - (7 - i / 8)) with true by lia. reflexivity.
    + replace (i / 8 =? 7 - (7 - i / 8)) with false by lia. now rewrite andb_false_r.
  - intros k Hk D. rewrite shl_byte_bits by lia. replace (i / 8 =? 7 - k) with false by lia. reflexivity.
Qed.
Lemma swap_bytes_u64 x : swap_bytes64 x < 2 ^ 64.
Proof. apply lt_pow2_bits. intros i Hi. rewrite swap_bytes_bits. replace (i <? 64) with false by lia. reflexivity. Qed.
Lemma swap_bytes_involutive x : x < 2 ^ 64 -> swap_bytes64 (swap_bytes64 x) = x.
Proof.
  intros H. apply N.bits_inj. intros i. rewrite !swap_bytes_bits. destruct (N.ltb_spec i 64).
  - replace (8 * (7 - i / 8) + i mod 8 <? 64) with true by lia. rewrite !andb_true_l. f_equal. lia.
  - now rewrite (bits_high x 64 i).
Qed.
Lemma swap_or x y : swap_bytes64 (N.lor x y) = N.lor (swap_bytes64 x) (swap_bytes64 y).
Proof. apply N.bits_inj. intros i. rewrite N.lor_spec, !swap_bytes_bits, N.lor_spec. now destruct (i <? 64). Qed.
Lemma swap_and x y : swap_bytes64 (N.land x y) = N.land (swap_bytes64 x) (swap_bytes64 y).
Proof. apply N.bits_inj. intros i. rewrite N.land_spec, !swap_bytes_bits, N.land_spec. now destruct (i <? 64). Qed.
Lemma swap_xor x y : swap_bytes64 (N.lxor x y) = N.lxor (swap_bytes64 x) (swap_bytes64 y).
Proof. apply N.bits_inj. intros i. rewrite N.lxor_spec, !swap_bytes_bits, N.lxor_spec. now destruct (i <? 64). Qed.
Lemma swap_not x y : swap_bytes64 (N.land (not_w 64 x) y) = N.land (not_w 64 (swap_bytes64 x)) (swap_bytes64 y).
Proof.
  apply N.bits_inj. intros i. rewrite N.land_spec, !swap_bytes_bits, N.land_spec, !not_w_bits, swap_bytes_bits.
  destruct (N.ltb_spec i 64); [|reflexivity].
  replace (8 * (7 - i / 8) + i mod 8 <? 64) with true by lia. reflexivity.
Qed.

Lemma byte_of_bits v k j : N.testbit (byte_of v k) j = (j <? 8) && N.testbit v (8 * k + j).
Proof.
  unfold byte_of. change 256 with (2 ^ 8). rewrite <- N.pow_mul_r, <- N.shiftr_div_pow2.
  destruct (N.ltb_spec j 8).
  - rewrite N.mod_pow2_bits_low, shr_bits by auto. simpl. f_equal. lia.
  - now rewrite N.mod_pow2_bits_high.
Qed.
Lemma bs_to_u128_ok P b : bs0 b < 2 ^ 64 -> bs1 b < 2 ^ 64 -> bs_to_u128 P b = Ret (bs1 b * 2 ^ 64 + bs0 b).
Proof. destruct b as [x y]. apply (to_u128_ok P (Bitboard x y)). Qed.
Lemma bs_from_u128_ok P a : bs_from_u128_unchecked P a = Ret (ByteSwapped (a mod 2 ^ 64) ((a / 2 ^ 64) mod 2 ^ 64)).
Proof.
  unfold bs_from_u128_unchecked. rewrite shr_w_ok by lia. cbn [bind]. unfold cast_w, modulus.
  now rewrite N.shiftr_div_pow2.
Qed.
Lemma swap_u128_bytes b k : u64_pair (bb0 b) (bb1 b) -> k < 16 ->
  byte_of (bs1 (bb_swap_bytes b) * 2 ^ 64 + bs0 (bb_swap_bytes b)) k = byte_of (bb1 b * 2 ^ 64 + bb0 b) (15 - k).
Proof.
  intros [H0 H1] Hk. apply N.bits_inj. intros j. rewrite !byte_of_bits. destruct (N.ltb_spec j 8); [|reflexivity].
  rewrite !andb_true_l. rewrite !u128_bits by (auto; apply swap_bytes_u64). unfold bb_swap_bytes. cbn [bs0 bs1].
  rewrite !swap_bytes_bits. split_cmp; f_equal; lia.
Qed.
