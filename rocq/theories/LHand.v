(** Lemmas on hands. *)
From Verif Require Export LBase LPiece.

Lemma hand_kinds_number k : In k hand_kinds <-> kind_number k <= 7.
Proof.
  unfold hand_kinds. split; destruct k; simpl; intros H; try lia; auto 10;
    repeat (destruct H as [H|H]; try discriminate); try destruct H.
Qed.
Lemma hand_slot_ok P k : hand_slot P k = Ret (kind_number k - 1).
Proof. destruct P, k; reflexivity. Qed.
Lemma is_hand_piece_ok k : is_hand_piece k = true <-> In k hand_kinds.
Proof. rewrite hand_kinds_number. unfold is_hand_piece. rewrite N.ltb_lt, pk_as_u8_number. lia. Qed.

Definition hand_put (h : hand) (k : piece_kind) (v : N) : hand :=
  Hand (list_set (hand_bytes h) (N.to_nat (kind_number k - 1)) v).

Lemma slot_lt P k : In k hand_kinds ->
  hand_slot P k = Ret (kind_number k - 1) /\ (kind_number k - 1 <? 7) = true /\ kind_number k - 1 < 7.
Proof.
  intros H. apply hand_kinds_number in H. pose proof (kind_number_range k). rewrite hand_slot_ok.
  repeat split; try apply N.ltb_lt; lia.
Qed.
Lemma slot_ge P k : ~ In k hand_kinds ->
  hand_slot P k = Ret (kind_number k - 1) /\ (kind_number k - 1 <? 7) = false.
Proof.
  intros H. rewrite hand_kinds_number in H. rewrite hand_slot_ok. split; auto. apply N.ltb_ge. lia.
Qed.
Lemma hand_count_ok P h k : valid_hand h ->
  hand_count P h k = Ret (if is_hand_piece k then Some (in_hand h k) else None).
Proof.
  intros (L & _). unfold hand_count. destruct (is_hand_piece k) eqn:E.
  - apply is_hand_piece_ok in E. destruct (slot_lt P k E) as (-> & E2 & E3). cbn [bind]. rewrite E2.
    rewrite (arr_index_ok _ _ 0) by lia. reflexivity.
  - assert (~ In k hand_kinds) by (rewrite <- is_hand_piece_ok; congruence).
    destruct (slot_ge P k H) as (-> & E2). cbn [bind]. now rewrite E2.
Qed.
Lemma hand_added_ok P h k : valid_hand h ->
  hand_added P h k = Ret (if is_hand_piece k then Some (hand_put h k ((in_hand h k + 1) mod 256)) else None).
Proof.
  intros (L & _). unfold hand_added. destruct (is_hand_piece k) eqn:E.
  - apply is_hand_piece_ok in E. destruct (slot_lt P k E) as (-> & E2 & E3). cbn [bind]. rewrite E2.
    rewrite (arr_index_ok _ _ 0) by lia. cbn [bind]. rewrite arr_store_ok by lia. reflexivity.
  - assert (~ In k hand_kinds) by (rewrite <- is_hand_piece_ok; congruence).
    destruct (slot_ge P k H) as (-> & E2). cbn [bind]. now rewrite E2.
Qed.
Lemma hand_removed_ok P h k : valid_hand h ->
  hand_removed P h k =
  Ret (if is_hand_piece k && (0 <? in_hand h k) then Some (hand_put h k (in_hand h k - 1)) else None).
Proof.
  intros (L & _). unfold hand_removed. destruct (is_hand_piece k) eqn:E; simpl andb.
  - apply is_hand_piece_ok in E. destruct (slot_lt P k E) as (-> & E2 & E3). cbn [bind]. rewrite E2.
    rewrite (arr_index_ok _ _ 0) by lia. cbn [bind]. fold (in_hand h k). unfold checked_sub.
    destruct (1 <=? in_hand h k) eqn:F.
    + replace (0 <? in_hand h k) with true by lia. rewrite arr_store_ok by lia. reflexivity.
    + now replace (0 <? in_hand h k) with false by lia.
  - assert (~ In k hand_kinds) by (rewrite <- is_hand_piece_ok; congruence).
    destruct (slot_ge P k H) as (-> & E2). cbn [bind]. now rewrite E2.
Qed.
Lemma hand_put_valid h k v : valid_hand h -> In k hand_kinds -> v < 256 -> valid_hand (hand_put h k v).
Proof.
  intros (L & F & Z) Hk Hv. apply hand_kinds_number in Hk. pose proof (kind_number_range k).
  unfold valid_hand, hand_put; simpl. rewrite list_set_length. repeat split; auto.
  - now apply list_set_Forall.
  - rewrite list_set_nth_other by lia. auto.
Qed.
Lemma in_hand_put_same h k v : valid_hand h -> In k hand_kinds -> in_hand (hand_put h k v) k = v.
Proof.
  intros (L & _) Hk. apply hand_kinds_number in Hk. pose proof (kind_number_range k).
  unfold in_hand, hand_put; simpl. apply list_set_nth_same. lia.
Qed.
Lemma in_hand_put_other h k j v : k <> j -> in_hand (hand_put h k v) j = in_hand h j.
Proof.
  intros N. unfold in_hand, hand_put; simpl. apply list_set_nth_other.
  pose proof (kind_number_range k). pose proof (kind_number_range j).
  intros E. apply N. apply kind_number_inj. lia.
Qed.
Lemma in_hand_lt h k : valid_hand h -> in_hand h k < 256.
Proof. intros (_ & F & _). unfold in_hand. apply (nth_Forall (fun b => b < 256)); auto; lia. Qed.
Lemma hand_new_valid : valid_hand hand_new.
Proof. repeat split. repeat constructor; lia. Qed.
Lemma hand_new_count k : in_hand hand_new k = 0.
Proof. now destruct k. Qed.

Lemma hand_ext h h' : valid_hand h -> valid_hand h' ->
  (forall k, In k hand_kinds -> in_hand h k = in_hand h' k) -> h = h'.
Proof.
  intros (L & F & Z) (L' & F' & Z') E.
  assert (hand_bytes h = hand_bytes h') as EB.
  { apply (nth_ext_eq _ _ 0); [congruence|]. intros i Hi. rewrite L in Hi.
    pose proof (E Pawn) as E0; pose proof (E Lance) as E1; pose proof (E Knight) as E2;
    pose proof (E Silver) as E3; pose proof (E Gold) as E4; pose proof (E Bishop) as E5; pose proof (E Rook) as E6.
    unfold in_hand in *; simpl in E0, E1, E2, E3, E4, E5, E6.
    do 7 (destruct i as [|i]; [intuition|]). destruct i as [|i]; [congruence|lia]. }
  destruct h, h'; simpl in *; congruence.
Qed.

Lemma le_value_inj a b : Forall (fun x => x < 256) a -> Forall (fun x => x < 256) b ->
  length a = length b -> le_value a = le_value b -> a = b.
Proof.
  intros Ha. revert b. induction Ha as [|x a Hx Ha IH]; intros b Hb L E; destruct b as [|y b]; try discriminate; auto.
  inversion Hb; subst. simpl in *. assert (x = y) by lia. subst y. f_equal. apply IH; auto; lia.
Qed.
Lemma hand_eqb_eq a b : valid_hand a -> valid_hand b -> (hand_eqb a b = true <-> a = b).
Proof.
  intros (L & F & _) (L' & F' & _). unfold hand_eqb, hand_as_u64. rewrite N.eqb_eq. split; [|now intros ->].
  intros E. apply le_value_inj in E; auto; [|congruence]. destruct a, b; simpl in *; congruence.
Qed.
