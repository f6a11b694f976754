(** Proofs of the property theorems on bitboards (restated in Prop_Bitboard.v). *)
From Verif Require Export LBitboard LShift.
(*PROPHEAD
Property theorems C12-C20: bitboards
*)

(** C12: [contains] always answers; the empty board contains nothing and [single] exactly its square. *)
Lemma c12_empty_single_pf : forall P s t, valid_square s -> valid_square t ->
  bb_contains P bb_empty t = Ret false /\
  exists b, bb_single P s = Ret b /\ valid_bb b /\
    bb_contains P b s = Ret true /\ (t <> s -> bb_contains P b t = Ret false).
Proof.
  intros P s t Hs Ht. rewrite bb_contains_ok, member_empty by auto. split; auto.
  exists (single s). rewrite bb_single_ok by auto. split; auto. split; [now apply single_valid|].
  rewrite !bb_contains_ok, !member_single by auto. rewrite sq_eqb_refl. split; auto.
  intros N. f_equal. apply not_true_is_false. rewrite sq_eqb_eq. congruence.
Qed.

(** C12: the operators are union, intersection, symmetric difference, complement and (not self) and other. *)
Lemma c12_set_algebra_pf : forall P a b s, valid_bb a -> valid_bb b -> valid_square s ->
  exists x y, bb_contains P a s = Ret x /\ bb_contains P b s = Ret y /\
    bb_contains P (bb_or a b) s = Ret (x || y) /\
    bb_contains P (bb_and a b) s = Ret (x && y) /\
    bb_contains P (bb_xor a b) s = Ret (xorb x y) /\
    bb_contains P (bb_andnot a b) s = Ret (negb x && y) /\
    bb_contains P (bb_not a) s = Ret (negb x).
Proof.
  intros P a b s Va Vb Hs. exists (member a s), (member b s).
  rewrite !bb_contains_ok, member_or, member_and, member_xor, member_andnot, member_not by auto. repeat split.
Qed.

(** C12: the results are valid bitboards. *)
Lemma c12_results_valid_pf : forall a b, valid_bb a -> valid_bb b ->
  valid_bb bb_empty /\ valid_bb (bb_or a b) /\ valid_bb (bb_and a b) /\ valid_bb (bb_xor a b) /\
  valid_bb (bb_andnot a b) /\ valid_bb (bb_not a).
Proof.
  intros a b Va Vb. auto 10 using bb_empty_valid, or_valid, and_valid, xor_valid, andnot_valid, not_valid.
Qed.

(** C12: the assign operators with a square insert it, keep only it, or toggle it. *)
Lemma c12_square_assign_pf : forall P a s, valid_bb a -> valid_square s ->
  exists o n x, bb_or_square P a s = Ret o /\ bb_and_square P a s = Ret n /\ bb_xor_square P a s = Ret x /\
    valid_bb o /\ valid_bb n /\ valid_bb x /\
    forall t, valid_square t ->
      bb_contains P o t = (if sq_eqb t s then Ret true else bb_contains P a t) /\
      bb_contains P n t = (if sq_eqb t s then bb_contains P a t else Ret false) /\
      bb_contains P x t = (y <- bb_contains P a t;; Ret (if sq_eqb t s then negb y else y)).
Proof.
  intros P a s Va Hs. unfold bb_or_square, bb_and_square, bb_xor_square. rewrite bb_single_ok by auto. cbn [bind].
  do 3 eexists. do 3 (split; [reflexivity|]). pose proof (single_valid s Hs).
  split; [now apply or_valid|]. split; [now apply and_valid|]. split; [now apply xor_valid|].
  intros t Ht. rewrite !bb_contains_ok, member_or, member_and, member_xor, member_single by auto. cbn [bind].
  replace (sq_eqb s t) with (sq_eqb t s) by (unfold sq_eqb; apply N.eqb_sym).
  destruct (sq_eqb t s), (member a t); auto.
Qed.

Lemma built_valid P b : built P b -> valid_bb b.
Proof.
  induction 1.
  - apply bb_empty_valid.
  - rewrite bb_single_ok in H0 by auto. injection H0 as <-. now apply single_valid.
  - now apply or_valid.
  - now apply and_valid.
  - now apply xor_valid.
  - now apply andnot_valid.
  - now apply not_valid.
  - unfold bb_or_square in H1. rewrite bb_single_ok in H1 by auto. injection H1 as <-.
    apply or_valid; auto using single_valid.
  - unfold bb_and_square in H1. rewrite bb_single_ok in H1 by auto. injection H1 as <-.
    apply and_valid; auto using single_valid.
  - unfold bb_xor_square in H1. rewrite bb_single_ok in H1 by auto. injection H1 as <-.
    apply xor_valid; auto using single_valid.
  - destruct (bb_flip_ok P a) as (b' & E & V & _). rewrite E in H0. injection H0 as <-. auto.
  - destruct (bb_dec a bb_empty) as [->|NE].
    + rewrite bb_pop_empty in H0. injection H0 as <- _. auto.
    + destruct (bb_pop_ok P a IHbuilt NE) as (s & E & _). rewrite E in H0. injection H0 as <- _. now apply remove_valid.
  - destruct (from_file_ok P f p H H0) as (b' & E & V & _). rewrite E in H1. injection H1 as <-. auto.
  - destruct (shift_down_ok P a d IHbuilt H0) as (b' & E & V & _). rewrite E in H1. injection H1 as <-. auto.
  - destruct (shift_up_ok P a d IHbuilt H0) as (b' & E & V & _). rewrite E in H1. injection H1 as <-. auto.
  - destruct (shift_left_ok P a d IHbuilt H0) as (b' & E & V & _). rewrite E in H1. injection H1 as <-. auto.
Qed.
Lemma build_list P l : (forall s, In s l -> valid_square s) ->
  exists b, built P b /\ forall t, valid_square t -> member b t = existsb (fun s => sq_eqb s t) l.
Proof.
  induction l as [|s l IH]; intros H.
  - exists bb_empty. split; [constructor|]. intros. apply member_empty.
  - destruct IH as (b & B & M); [intros; apply H; now right|]. assert (Hs : valid_square s) by (apply H; now left).
    exists (bb_or b (single s)). split.
    + eapply built_or_square; eauto. unfold bb_or_square. now rewrite bb_single_ok by auto.
    + intros t Ht. rewrite member_or, M, member_single by auto. simpl. apply orb_comm.
Qed.

(** C12: the valid bitboards (the set the theorems quantify over) are exactly those that can be built. *)
Lemma c12_built_iff_valid_pf : forall P b, built P b <-> valid_bb b.
Proof.
  intros P b. split; [apply built_valid|]. intros V.
  destruct (build_list P (members b)) as (b' & B & M); [intros s Hs; now apply members_In in Hs|].
  replace b with b'; auto. apply member_ext; eauto using built_valid.
  intros s Hs. rewrite M by auto. apply eq_true_iff_eq. rewrite existsb_exists. split.
  - intros (t & It & E). apply sq_eqb_eq in E. subst t. now apply members_In in It.
  - intros E. exists s. rewrite sq_eqb_refl, members_In. auto.
Qed.

(** C13: two valid bitboards are == iff they contain the same squares (and then they are the same value). *)
Lemma c13_eq_is_set_equality_pf : forall P a b, valid_bb a -> valid_bb b ->
  (bb_eqb a b = true <-> forall s, valid_square s -> bb_contains P a s = bb_contains P b s) /\
  (bb_eqb a b = true <-> a = b).
Proof.
  intros P a b Va Vb. rewrite bb_eqb_eq. split; [|tauto]. split; [now intros ->|]. intros H.
  apply member_ext; auto. intros s Hs. specialize (H s Hs). rewrite !bb_contains_ok in H by auto. congruence.
Qed.

(** C13: [count] is the number of squares contained: the length of any list that has each of them exactly once. *)
Lemma c13_count_is_cardinality_pf : forall P b l, valid_bb b -> NoDup l ->
  (forall s, In s l <-> valid_square s /\ bb_contains P b s = Ret true) ->
  bb_count P b = Ret (N.of_nat (length l)).
Proof.
  intros P b l V ND H. rewrite bb_count_ok by auto. do 2 f_equal. apply Nat.le_antisymm; apply NoDup_incl_length; auto.
  - apply members_NoDup.
  - intros s Hs. apply members_In in Hs as [Vs M]. apply H. now rewrite bb_contains_ok, M.
  - intros s Hs. apply H in Hs as [Vs M]. rewrite bb_contains_ok in M by auto. apply members_In. split; congruence.
Qed.

(** C13: such a list exists for every board, so the previous theorem is never empty; and [is_empty] iff nothing is contained iff the count is 0. *)
Lemma c13_count_total_pf : forall P b, valid_bb b ->
  exists l, NoDup l /\ (forall s, In s l <-> valid_square s /\ bb_contains P b s = Ret true) /\ (length l <= 81)%nat /\
    bb_count P b = Ret (N.of_nat (length l)) /\
    (bb_is_empty b = true <-> l = []) /\ (bb_is_empty b = true <-> bb_count P b = Ret 0).
Proof.
  intros P b V. exists (members b). split; [apply members_NoDup|]. split.
  - intros s. rewrite members_In. split; intros [Vs E]; split; auto; [now rewrite bb_contains_ok, E|].
    rewrite bb_contains_ok in E by auto. congruence.
  - split; [apply members_length|]. rewrite bb_count_ok by auto. split; auto.
    assert (A : bb_is_empty b = true <-> members b = []).
    { rewrite bb_is_empty_ok. split; [intros ->; reflexivity|]. intros E. apply member_ext; auto using bb_empty_valid.
      intros s Hs. rewrite member_empty. apply not_true_is_false. intros M.
      assert (I : In s (members b)) by (now apply members_In). now rewrite E in I. }
    split; auto. rewrite A. destruct (members b); simpl; split; intros X; auto; try discriminate.
Qed.

(** C14: [pop] on the empty board returns [None] and changes nothing. *)
Lemma c14_pop_empty_pf : forall P b, valid_bb b -> (forall s, valid_square s -> bb_contains P b s = Ret false) ->
  bb_pop P b = Ret (b, None) /\ Bitboard_pop P b = Ret (b, os_from None).
Proof.
  intros P b V H. assert (b = bb_empty) as ->.
  { apply member_ext; auto using bb_empty_valid. intros s Hs. specialize (H s Hs).
    rewrite bb_contains_ok in H by auto. rewrite member_empty. congruence. }
  unfold Bitboard_pop. rewrite bb_pop_empty. auto.
Qed.

(** C14: otherwise it returns the member of least index and removes exactly that member. *)
Lemma c14_pop_least_member_pf : forall P b, valid_bb b -> (exists s, valid_square s /\ bb_contains P b s = Ret true) ->
  exists s b', bb_pop P b = Ret (b', Some s) /\ Bitboard_pop P b = Ret (b', os_from (Some s)) /\
    valid_square s /\ valid_bb b' /\ bb_contains P b s = Ret true /\
    (forall t, valid_square t -> bb_contains P b t = Ret true -> sq_repr s <= sq_repr t) /\
    (forall t, valid_square t -> bb_contains P b' t = if sq_eqb t s then Ret false else bb_contains P b t).
Proof.
  intros P b V (u & Hu & Mu). rewrite bb_contains_ok in Mu by auto.
  assert (NE : b <> bb_empty) by (intros ->; rewrite member_empty in Mu; discriminate).
  destruct (bb_pop_ok P b V NE) as (s & E & Vs & Ms & Lo). exists s, (remove b s).
  unfold Bitboard_pop. rewrite E. split; auto. split; auto. split; auto. split; [now apply remove_valid|].
  split; [now rewrite bb_contains_ok, Ms|]. split.
  - intros t Ht Mt. rewrite bb_contains_ok in Mt by auto. destruct (N.lt_ge_cases (sq_repr t) (sq_repr s)); auto.
    rewrite Lo in Mt by auto. discriminate.
  - intros t Ht. rewrite !bb_contains_ok, member_remove by auto.
    replace (sq_eqb s t) with (sq_eqb t s) by (unfold sq_eqb; apply N.eqb_sym).
    destruct (sq_eqb t s); simpl; now rewrite ?andb_true_r, ?andb_false_r.
Qed.

(** C14: iterating until [None] yields the members, in strictly ascending order of index, [count] items, and leaves the empty board;
    [size_hint] bounds the number of items. 82 calls of [next] always suffice. *)
Lemma c14_iteration_pf : forall P b fuel, valid_bb b -> (82 <= fuel)%nat ->
  exists l, bb_collect P fuel b = Ret (Some (bb_empty, l)) /\ ascending l /\
    (forall s, In s l <-> valid_square s /\ bb_contains P b s = Ret true) /\
    bb_count P b = Ret (N.of_nat (length l)) /\
    (fst (bb_size_hint b) <= N.of_nat (length l) /\
     forall u, snd (bb_size_hint b) = Some u -> N.of_nat (length l) <= u).
Proof.
  intros P b fuel V Hf. exists (members b). pose proof (members_length b) as L.
  rewrite collect_ok by (auto; lia). split; auto. split; [apply ascending_filter, all_squares_ascending|]. split.
  - intros s. rewrite members_In. split; intros [Vs E]; split; auto; [now rewrite bb_contains_ok, E|].
    rewrite bb_contains_ok in E by auto. congruence.
  - rewrite bb_count_ok by auto. split; auto. simpl. split; [lia|]. intros u [= <-]. lia.
Qed.

Lemma map_NoDup {A B} (f : A -> B) l :
  (forall x y, In x l -> In y l -> f x = f y -> x = y) -> NoDup l -> NoDup (map f l).
Proof.
  induction l as [|a l IH]; intros I ND; simpl; [constructor|]. inversion_clear ND. constructor.
  - intros X. apply in_map_iff in X as (b & E & Ib). apply H. rewrite (I a b); auto; [now left|now right].
  - apply IH; auto. intros x y Hx Hy. apply I; now right.
Qed.

Lemma flip_count x y : valid_bb x -> valid_bb y -> (forall s, valid_square s -> member x (rotate s) = member y s) ->
  length (members x) = length (members y).
Proof.
  intros Vx Vy M. apply Nat.le_antisymm.
  - rewrite <- (map_length rotate (members x)). apply NoDup_incl_length.
    + apply map_NoDup; [|apply members_NoDup]. intros s t Hs Ht E. apply members_In in Hs as [Hs _], Ht as [Ht _].
      rewrite <- (rotate_involutive s), <- (rotate_involutive t), E; auto.
    + intros s Hs. apply in_map_iff in Hs as (t & <- & Ht). apply members_In in Ht as [Vt Mt]. apply members_In.
      split; [now apply rotate_valid|]. rewrite <- M, rotate_involutive by auto using rotate_valid. auto.
  - rewrite <- (map_length rotate (members y)). apply NoDup_incl_length.
    + apply map_NoDup; [|apply members_NoDup]. intros s t Hs Ht E. apply members_In in Hs as [Hs _], Ht as [Ht _].
      rewrite <- (rotate_involutive s), <- (rotate_involutive t), E; auto.
    + intros s Hs. apply in_map_iff in Hs as (t & <- & Ht). apply members_In in Ht as [Vt Mt]. apply members_In.
      split; [now apply rotate_valid|]. now rewrite M.
Qed.

(** C15: [flip] rotates the set. *)
Lemma c15_flip_pf : forall P b, valid_bb b ->
  exists b', bb_flip P b = Ret b' /\ valid_bb b' /\
    (forall s, valid_square s -> exists t, sq_flip P s = Ret t /\ bb_contains P b' t = bb_contains P b s) /\
    bb_count P b' = bb_count P b /\ bb_flip P b' = Ret b.
Proof.
  intros P b V. destruct (bb_flip_ok P b) as (b' & E & V' & M). specialize (V' V). specialize (M V). exists b'. split; [exact E|]. split; [exact V'|].
  split; [intros s Hs; exists (rotate s); rewrite sq_flip_ok, !bb_contains_ok, M by auto using rotate_valid; auto|].
  split.
  - rewrite !bb_count_ok by auto. now rewrite (flip_count b' b).
  - destruct (bb_flip_ok P b') as (b'' & E2 & V2 & M2). specialize (V2 V'). specialize (M2 V'). rewrite E2. f_equal. apply member_ext; auto.
    intros s Hs. rewrite <- (rotate_involutive s) by auto. rewrite M2 by auto using rotate_valid.
    rewrite M, rotate_involutive by auto. reflexivity.
Qed.

(** C16: [shift_down] moves every member by [d] ranks down. *)
Lemma c16_shift_down_pf : forall P b d, valid_bb b -> d <= 9 ->
  exists b', bb_shift_down P b d = Ret b' /\ valid_bb b' /\
    forall f r, on_board f r ->
      bb_contains P b' (square_at f r) = if d <? r then bb_contains P b (square_at f (r - d)) else Ret false.
Proof.
  intros P b d V Hd. destruct (shift_down_ok P b d V Hd) as (b' & E & V' & M). exists b'. split; auto. split; auto.
  intros f r B. rewrite bb_contains_ok, M by auto using square_at_valid. destruct (N.ltb_spec d r); auto.
  rewrite bb_contains_ok; auto. apply square_at_valid. unfold on_board in *. lia.
Qed.

(** C16: [shift_up] moves every member by [d] ranks up. *)
Lemma c16_shift_up_pf : forall P b d, valid_bb b -> d <= 9 ->
  exists b', bb_shift_up P b d = Ret b' /\ valid_bb b' /\
    forall f r, on_board f r ->
      bb_contains P b' (square_at f r) = if r + d <=? 9 then bb_contains P b (square_at f (r + d)) else Ret false.
Proof.
  intros P b d V Hd. destruct (shift_up_ok P b d V Hd) as (b' & E & V' & M). exists b'. split; auto. split; auto.
  intros f r B. rewrite bb_contains_ok, M by auto using square_at_valid. destruct (N.leb_spec (r + d) 9); auto.
  rewrite bb_contains_ok; auto. apply square_at_valid. unfold on_board in *. lia.
Qed.

(** C16: [shift_left] moves every member by [d] files to the left (to the higher file numbers). *)
Lemma c16_shift_left_pf : forall P b d, valid_bb b -> d <= 9 ->
  exists b', bb_shift_left P b d = Ret b' /\ valid_bb b' /\
    forall f r, on_board f r ->
      bb_contains P b' (square_at f r) = if d <? f then bb_contains P b (square_at (f - d) r) else Ret false.
Proof.
  intros P b d V Hd. destruct (shift_left_ok P b d V Hd) as (b' & E & V' & M). exists b'. split; auto. split; auto.
  intros f r B. rewrite bb_contains_ok, M by auto using square_at_valid. destruct (N.ltb_spec d f); auto.
  rewrite bb_contains_ok; auto. apply square_at_valid. unfold on_board in *. lia.
Qed.

(** C17: [contains] of the result of [shift_right] is right for every delta, and the result is a valid bitboard iff
    it is not the case that delta = 0 and 8A is a member, or delta = 1 and 9A is a member. Missing for the full C17:
    validity in these two cases, which is false ([c17_shift_right_refuted]). *)
Lemma c17_shift_right_partial_pf : forall P b d, valid_bb b -> d <= 9 ->
  exists b', bb_shift_right P b d = Ret b' /\
    (forall f r, on_board f r ->
      bb_contains P b' (square_at f r) = if f + d <=? 9 then bb_contains P b (square_at (f + d) r) else Ret false) /\
    (valid_bb b' <-> ~ (d = 0 /\ bb_contains P b (square_at 8 1) = Ret true) /\
                     ~ (d = 1 /\ bb_contains P b (square_at 9 1) = Ret true)).
Proof.
  intros P b d V Hd. destruct (shift_right_ok P b d V Hd) as (b' & E & V' & _ & M). exists b'. split; auto. split.
  - intros f r B. rewrite bb_contains_ok, M by auto using square_at_valid. destruct (N.leb_spec (f + d) 9); auto.
    rewrite bb_contains_ok; auto. apply square_at_valid. unfold on_board in *. lia.
  - rewrite V', !bb_contains_ok by (apply square_at_valid; unfold on_board; lia).
    assert (I : forall x, Ret x = Ret true <-> x = true) by (intros x; split; congruence). now rewrite !I.
Qed.

(** C17 is false of the code: shifting the single square 9A right by one file gives a board that contains exactly 8A but
    is not == to the board of 8A, counts two squares, makes [pop] panic in a build with debug assertions and return 7I, which is not
    contained, in any other. Shifting {8A} by zero files is not the identity either. *)
Lemma c17_shift_right_refuted_pf : exists b e b', valid_bb b /\ valid_bb e /\
  (forall P, bb_single P (square_at 9 1) = Ret b /\ bb_single P (square_at 8 1) = Ret e) /\
  (forall P, bb_shift_right P b 1 = Ret b' /\ bb_count P b' = Ret 2 /\
     forall s, valid_square s -> bb_contains P b' s = bb_contains P e s) /\
  ~ valid_bb b' /\ bb_eqb b' e = false /\
  (forall P, debug_assertions P = true -> bb_pop P b' = Panic) /\
  (forall P, debug_assertions P = false ->
     exists r, bb_pop P b' = Ret (r, Some (square_at 7 9)) /\ bb_contains P b' (square_at 7 9) = Ret false) /\
  (forall P, exists z, bb_shift_right P e 0 = Ret z /\ bb_eqb z e = false).
Proof.
  exists (single (square_at 9 1)), (single (square_at 8 1)), (Bitboard (2 ^ 63) 1).
  split; [apply single_valid, square_at_valid; unfold on_board; lia|].
  split; [apply single_valid, square_at_valid; unfold on_board; lia|].
  split; [intros P; now rewrite !bb_single_ok by (apply square_at_valid; unfold on_board; lia)|].
  split.
  { intros P. split; [destruct P; vm_compute; reflexivity|]. split; [destruct P; vm_compute; reflexivity|].
    intros s. destruct P; sweep_square s. }
  split; [intros [H _]; vm_compute in H; discriminate|].
  split; [vm_compute; reflexivity|]. split; [intros P H; destruct P; (discriminate || (vm_compute; reflexivity))|].
  split; [intros P H; destruct P; try discriminate; eexists; split; vm_compute; reflexivity|].
  intros P. eexists. split; [destruct P; vm_compute; reflexivity|vm_compute; reflexivity].
Qed.

(** C18: [from_file_unchecked] under its safety conditions. *)
Lemma c18_from_file_pf : forall P file pattern, 1 <= file <= 9 -> pattern < 512 ->
  exists b, bb_from_file_unchecked P file pattern = Ret b /\ valid_bb b /\
    forall f r, on_board f r -> bb_contains P b (square_at f r) = Ret ((f =? file) && N.testbit pattern (r - 1)).
Proof.
  intros P file pat Hf Hp. destruct (from_file_ok P file pat Hf Hp) as (b & E & V & M). exists b. split; auto. split; auto.
  intros f r B. now rewrite bb_contains_ok, M by auto using square_at_valid.
Qed.

(** C18: [get_file_unchecked] reads the pattern of any file of any board. *)
Lemma c18_get_file_pf : forall P b file, 1 <= file <= 9 ->
  exists p, bb_get_file_unchecked P b file = Ret p /\ p < 512 /\
    forall r, 1 <= r <= 9 -> bb_contains P b (square_at file r) = Ret (N.testbit p (r - 1)).
Proof.
  intros P b file Hf. destruct (get_file_ok P b file Hf) as (p & E & L & M). exists p. split; auto. split; auto.
  intros r Hr. rewrite bb_contains_ok by (apply square_at_valid; unfold on_board; lia). now rewrite M.
Qed.

(** C18: reading back what was written; the other files are empty. *)
Lemma c18_file_round_trip_pf : forall P file file' pattern, 1 <= file <= 9 -> 1 <= file' <= 9 -> pattern < 512 ->
  exists b, bb_from_file_unchecked P file pattern = Ret b /\
    bb_get_file_unchecked P b file' = Ret (if file' =? file then pattern else 0).
Proof.
  intros P file file' pat Hf Hf' Hp. destruct (from_file_ok P file pat Hf Hp) as (b & E & V & M). exists b. split; auto.
  destruct (get_file_ok P b file' Hf') as (q & E' & L & M'). rewrite E'. f_equal.
  apply (bits_ext _ _ 9); auto; [destruct (file' =? file); [auto|reflexivity]|].
  intros i Hi. specialize (M' (i + 1) ltac:(lia)). replace (i + 1 - 1) with i in M' by lia. rewrite M', M by (unfold on_board; lia).
  replace (i + 1 - 1) with i by lia. destruct (file' =? file); simpl; auto.
Qed.

(** C18: the nine patterns determine the board. *)
Lemma c18_files_determine_board_pf : forall P a b, valid_bb a -> valid_bb b ->
  (forall file, 1 <= file <= 9 -> bb_get_file_unchecked P a file = bb_get_file_unchecked P b file) -> a = b.
Proof.
  intros P a b Va Vb H. apply member_ext; auto. intros s Hs. rewrite <- (square_at_coords s) by auto.
  pose proof (coords_on_board s Hs) as [Bf Br].
  destruct (get_file_ok P a (file_of s) Bf) as (p & E & _ & M). destruct (get_file_ok P b (file_of s) Bf) as (q & E' & _ & M').
  rewrite H, E' in E by auto. injection E as <-. now rewrite <- M, <- M'.
Qed.

(** C19: byte swapping is an involution in both directions (on all pairs of words), and different boards have different swapped forms. *)
Lemma c19_swap_involution_pf : forall b s, u64_pair (bb0 b) (bb1 b) -> u64_pair (bs0 s) (bs1 s) ->
  bs_swap_bytes (bb_swap_bytes b) = b /\ bb_swap_bytes (bs_swap_bytes s) = s /\
  u64_pair (bs0 (bb_swap_bytes b)) (bs1 (bb_swap_bytes b)).
Proof.
  intros [x y] [u v] [H0 H1] [H2 H3]. unfold bs_swap_bytes, bb_swap_bytes. cbn [bb0 bb1 bs0 bs1] in *.
  rewrite !swap_bytes_involutive by auto. split; auto. split; auto. split; apply swap_bytes_u64.
Qed.

(** C19: the operations on swapped boards are those on the boards. *)
Lemma c19_swap_commutes_pf : forall a b,
  bb_swap_bytes (bb_or a b) = bs_or (bb_swap_bytes a) (bb_swap_bytes b) /\
  bb_swap_bytes (bb_and a b) = bs_and (bb_swap_bytes a) (bb_swap_bytes b) /\
  bb_swap_bytes (bb_xor a b) = bs_xor (bb_swap_bytes a) (bb_swap_bytes b) /\
  bb_swap_bytes (bb_andnot a b) = bs_andnot (bb_swap_bytes a) (bb_swap_bytes b).
Proof.
  intros [x y] [u v]. unfold bb_swap_bytes, bb_or, bb_and, bb_xor, bb_andnot, bs_or, bs_and, bs_xor, bs_andnot.
  cbn [bb0 bb1 bs0 bs1]. rewrite !swap_or, !swap_and, !swap_xor.
  rewrite <- !swap_and, !swap_not, !swap_and. repeat split.
Qed.

(** C19: the 128-bit value of the swapped board is the byte reversal of that of the board. *)
Lemma c19_swap_reverses_bytes_pf : forall P b, u64_pair (bb0 b) (bb1 b) ->
  exists v w, bb_to_u128 P b = Ret v /\ bs_to_u128 P (bb_swap_bytes b) = Ret w /\
    forall k, k < 16 -> byte_of w k = byte_of v (15 - k).
Proof.
  intros P b H. pose proof H as [H0 H1]. do 2 eexists. split; [now apply to_u128_ok|].
  split; [apply bs_to_u128_ok; apply swap_bytes_u64|]. intros k Hk. now apply swap_u128_bytes.
Qed.

(** C20: the 128-bit representation round-trips and identifies the board; its value is word1 * 2^64 + word0. *)
Lemma c20_u128_round_trip_pf : forall P b, u64_pair (bb0 b) (bb1 b) ->
  exists v, bb_to_u128 P b = Ret v /\ v < 2 ^ 128 /\ bb_from_u128_unchecked P v = Ret b /\
    forall b', u64_pair (bb0 b') (bb1 b') -> bb_to_u128 P b' = Ret v -> b' = b.
Proof.
  intros P b [H0 H1]. eexists. split; [now apply to_u128_ok|].
  destruct (u128_split (bb0 b) (bb1 b) H0 H1) as [S0 S1]. split; [|split].
  - change (2 ^ 128) with (2 ^ 64 * 2 ^ 64). set (m := 2 ^ 64) in *. nia.
  - rewrite from_u128_ok, S0, S1. now destruct b.
  - intros b' [H0' H1'] E. rewrite to_u128_ok in E by auto. injection E as E.
    destruct (u128_split (bb0 b') (bb1 b') H0' H1') as [S0' S1']. rewrite E in S0', S1'. apply bb_inj; congruence.
Qed.

(** C20: the same for [ByteSwappedBitboard]. *)
Lemma c20_swapped_u128_round_trip_pf : forall P b, u64_pair (bs0 b) (bs1 b) ->
  exists v, bs_to_u128 P b = Ret v /\ v < 2 ^ 128 /\ bs_from_u128_unchecked P v = Ret b /\
    forall b', u64_pair (bs0 b') (bs1 b') -> bs_to_u128 P b' = Ret v -> b' = b.
Proof.
  intros P [x y] H. destruct (c20_u128_round_trip_pf P (Bitboard x y) H) as (v & E & L & E' & U).
  exists v. split; [exact E|]. split; auto. split.
  - rewrite bs_from_u128_ok. rewrite from_u128_ok in E'. injection E' as E1 E2. f_equal. f_equal; auto.
  - intros [x' y'] H' E2. specialize (U (Bitboard x' y') H' E2). injection U as -> ->. auto.
Qed.

(** C20: in the 128-bit representation, bit index-1 (files 1-7) or bit index (files 8, 9) is the membership of the square, and no other bit is set. *)
Lemma c20_u128_bits_pf : forall P b, valid_bb b ->
  exists v, bb_to_u128 P b = Ret v /\
    (forall s, valid_square s ->
       bb_contains P b s = Ret (N.testbit v (if sq_repr s <=? 63 then sq_repr s - 1 else sq_repr s))) /\
    N.testbit v 63 = false /\ (forall i, 82 <= i -> N.testbit v i = false).
Proof.
  intros P b V. pose proof (valid_bb_u64 b V) as [H0 H1]. eexists. split; [now apply to_u128_ok|].
  rewrite valid_bb_bits in V. destruct V as [V0 V1].
  split; [|split].
  - intros s Hs. rewrite bb_contains_ok by auto. unfold member. unfold valid_square in Hs. rewrite u128_bits by auto. split_cmp; auto.
  - rewrite u128_bits by auto. apply V0. lia.
  - intros i Hi. rewrite u128_bits by auto. split_cmp. apply V1. lia.
Qed.
