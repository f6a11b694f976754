(** Lemmas on bits of [N]. *)
From Verif Require Export LBase.

Lemma lt_pow2_bits x w : x < 2 ^ w <-> forall i, w <= i -> N.testbit x i = false.
Proof.
  split.
  - intros H i Hi. destruct (N.eq_dec x 0) as [->|Nz]; [apply N.bits_0|].
    apply N.bits_above_log2. apply N.log2_lt_pow2 in H; lia.
  - intros H. destruct (N.eq_dec x 0) as [->|Nz]; [apply N.neq_0_lt_0, N.pow_nonzero; lia|].
    apply N.log2_lt_pow2; [lia|]. destruct (N.lt_ge_cases (N.log2 x) w) as [|G]; auto.
    specialize (H _ G). rewrite N.bit_log2 in H by auto. discriminate.
Qed.

Lemma bits_high x w i : x < 2 ^ w -> w <= i -> N.testbit x i = false.
Proof. intros H Hi. now apply (proj1 (lt_pow2_bits x w)). Qed.

Lemma bits_ext x y w : x < 2 ^ w -> y < 2 ^ w -> (forall i, i < w -> N.testbit x i = N.testbit y i) -> x = y.
Proof.
  intros Hx Hy H. apply N.bits_inj. intros i. destruct (N.lt_ge_cases i w); auto.
  now rewrite (bits_high x w), (bits_high y w).
Qed.

Lemma not_w_bits w x i : N.testbit (not_w w x) i = if i <? w then negb (N.testbit x i) else N.testbit x i.
Proof.
  unfold not_w, modulus. rewrite N.lxor_spec.
  replace (2 ^ w - 1) with (N.ones w) by (rewrite N.ones_equiv; lia).
  destruct (N.ltb_spec i w).
  - rewrite N.ones_spec_low by auto. now destruct (N.testbit x i).
  - rewrite N.ones_spec_high by auto. now destruct (N.testbit x i).
Qed.

Lemma shl_bits x n w i : N.testbit (N.shiftl x n mod 2 ^ w) i = (i <? w) && (n <=? i) && N.testbit x (i - n).
Proof.
  destruct (N.ltb_spec i w).
  - rewrite N.mod_pow2_bits_low by auto. destruct (N.leb_spec n i); simpl.
    + now rewrite N.shiftl_spec_high'.
    + now rewrite N.shiftl_spec_low.
  - now rewrite N.mod_pow2_bits_high.
Qed.
Lemma shr_bits x n i : N.testbit (N.shiftr x n) i = N.testbit x (i + n).
Proof. apply N.shiftr_spec'. Qed.
Lemma cast_bits w x i : N.testbit (cast_w w x) i = (i <? w) && N.testbit x i.
Proof.
  unfold cast_w, modulus. destruct (N.ltb_spec i w); simpl.
  - now rewrite N.mod_pow2_bits_low.
  - now rewrite N.mod_pow2_bits_high.
Qed.
Lemma ones_bits w i : N.testbit (2 ^ w - 1) i = (i <? w).
Proof.
  replace (2 ^ w - 1) with (N.ones w) by (rewrite N.ones_equiv; lia).
  destruct (N.ltb_spec i w); [now apply N.ones_spec_low|now apply N.ones_spec_high].
Qed.
Lemma bit_single n i : N.testbit (N.shiftl 1 n) i = (i =? n).
Proof.
  destruct (N.eqb_spec i n) as [->|D].
  - rewrite N.shiftl_spec_high', N.sub_diag by lia. reflexivity.
  - destruct (N.lt_ge_cases i n); [now rewrite N.shiftl_spec_low|].
    rewrite N.shiftl_spec_high' by auto. destruct (i - n) eqn:E; [lia|]. now destruct p.
Qed.
Lemma shl_one n w : n < w -> N.shiftl 1 n mod 2 ^ w = N.shiftl 1 n.
Proof.
  intros H. apply N.mod_small. rewrite N.shiftl_1_l. apply N.pow_lt_mono_r; lia.
Qed.

(** a test bit of a number by comparison to a power of two *)
Lemma land_single x n : negb (N.land x (N.shiftl 1 n) =? 0) = N.testbit x n.
Proof.
  destruct (N.testbit x n) eqn:E.
  - apply negb_true_iff, N.eqb_neq. intros Z.
    assert (F : N.testbit (N.land x (N.shiftl 1 n)) n = false) by (rewrite Z; apply N.bits_0).
    rewrite N.land_spec, bit_single, N.eqb_refl, E in F. discriminate.
  - apply negb_false_iff, N.eqb_eq. apply N.bits_inj_0. intros i. rewrite N.land_spec, bit_single.
    destruct (N.eqb_spec i n) as [->|]; [now rewrite E|apply andb_false_r].
Qed.

Lemma eq0_bits x : x = 0 <-> forall i, N.testbit x i = false.
Proof. split; [intros ->; apply N.bits_0|apply N.bits_inj_0]. Qed.

(** lowest set bit *)
Fixpoint ptz (p : positive) : N := match p with xO q => N.succ (ptz q) | _ => 0 end.

Lemma testbit_xO_0 q : N.testbit (Npos (xO q)) 0 = false.
Proof. reflexivity. Qed.
Lemma testbit_xO_S q i : N.testbit (Npos (xO q)) (N.succ i) = N.testbit (Npos q) i.
Proof. change (Npos (xO q)) with (2 * Npos q). apply N.testbit_even_succ. lia. Qed.
Lemma testbit_xI_S q i : N.testbit (Npos (xI q)) (N.succ i) = N.testbit (Npos q) i.
Proof. change (Npos (xI q)) with (2 * Npos q + 1). apply N.testbit_odd_succ. lia. Qed.

Lemma ptz_set p : N.testbit (Npos p) (ptz p) = true.
Proof. induction p; simpl; auto. now rewrite testbit_xO_S. Qed.
Lemma ptz_below p i : i < ptz p -> N.testbit (Npos p) i = false.
Proof.
  revert i. induction p as [q IH|q IH|]; simpl; intros i H; try lia.
  destruct (N.eq_dec i 0) as [->|Nz]; auto.
  replace i with (N.succ (N.pred i)) by lia. rewrite testbit_xO_S. apply IH. lia.
Qed.

Lemma clear_lowest p : forall i,
  N.testbit (N.land (Npos p) (Npos p - 1)) i = N.testbit (Npos p) i && negb (i =? ptz p).
Proof.
  induction p as [q IH|q IH|]; intros i; rewrite N.land_spec; simpl ptz.
  - replace (Npos (xI q) - 1) with (2 * Npos q) by lia.
    destruct (N.eq_dec i 0) as [->|Nz]; [rewrite N.testbit_even_0; reflexivity|].
    replace (i =? 0) with false by lia. replace i with (N.succ (N.pred i)) by lia.
    rewrite N.testbit_even_succ, testbit_xI_S by lia. simpl. now destruct (N.testbit (Npos q) (N.pred i)).
  - destruct (N.eq_dec i 0) as [->|Nz]; [reflexivity|].
    replace (Npos (xO q) - 1) with (2 * (Npos q - 1) + 1) by lia.
    specialize (IH (N.pred i)). rewrite N.land_spec in IH.
    replace i with (N.succ (N.pred i)) by lia. rewrite N.testbit_odd_succ, testbit_xO_S by lia.
    rewrite IH. f_equal. f_equal. lia.
  - destruct (N.eq_dec i 0) as [->|Nz]; [reflexivity|].
    replace (N.testbit 1 i) with false; [reflexivity|].
    replace i with (N.succ (N.pred i)) by lia. symmetry. change 1 with (2 * 0 + 1). rewrite N.testbit_odd_succ by lia.
    apply N.bits_0.
Qed.

(** folds of [N.lor] *)
Lemma fold_lor_bits {A} (f : A -> N) l : forall acc i,
  N.testbit (fold_left (fun a x => N.lor a (f x)) l acc) i =
  N.testbit acc i || existsb (fun x => N.testbit (f x) i) l.
Proof.
  induction l as [|x l IH]; intros acc i; simpl; [now rewrite orb_false_r|].
  now rewrite IH, N.lor_spec, orb_assoc.
Qed.

Lemma existsb_range_unique lo hi (f : N -> bool) j :
  (forall k, lo <= k < hi -> k <> j -> f k = false) ->
  existsb f (range lo hi) = (lo <=? j) && (j <? hi) && f j.
Proof.
  intros H. apply eq_true_iff_eq. rewrite existsb_exists, !andb_true_iff, N.leb_le, N.ltb_lt. split.
  - intros (k & I & E). apply range_In in I. destruct (N.eq_dec k j) as [->|D]; [tauto|].
    rewrite H in E by auto. discriminate.
  - intros ((A & B) & E). exists j. split; auto. now apply range_In.
Qed.

(** addition of disjoint parts *)
Lemma lor_shift_add a b n : a < 2 ^ n -> N.lor (N.shiftl b n) a = b * 2 ^ n + a.
Proof.
  intros H. rewrite N.shiftl_mul_pow2. symmetry. rewrite N.add_nocarry_lxor, N.lxor_lor; auto.
  all: apply N.bits_inj_0; intros i; rewrite N.land_spec, <- N.shiftl_mul_pow2;
    destruct (N.lt_ge_cases i n); [now rewrite N.shiftl_spec_low|rewrite (bits_high a n) by auto; apply andb_false_r].
Qed.
