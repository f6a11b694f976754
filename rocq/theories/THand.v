(** Proofs of the property theorems on hands (restated in Prop_Hand.v). *)
From Verif Require Export LHand SpecHand.
(*PROPHEAD
Property theorems C10-C11: hands
*)

Lemma not_hand_kind k : is_hand_piece k = false <-> ~ In k hand_kinds.
Proof. rewrite <- is_hand_piece_ok. destruct (is_hand_piece k); split; congruence. Qed.

(** C10: a new hand is empty and [count] is defined exactly for the seven hand kinds. *)
Lemma c10_new_and_count_pf : forall P k,
  (In k hand_kinds -> hand_count P hand_new k = Ret (Some 0)) /\
  (forall h, valid_hand h ->
     (In k hand_kinds -> exists n, hand_count P h k = Ret (Some n) /\ n < 256 /\ Hand_count P h k = Ret n) /\
     (~ In k hand_kinds -> hand_count P h k = Ret None /\ Hand_count P h k = Ret 0)).
Proof.
  intros P k. split.
  - intros H. rewrite hand_count_ok by apply hand_new_valid. apply is_hand_piece_ok in H. rewrite H, hand_new_count. auto.
  - intros h V. unfold Hand_count. rewrite hand_count_ok by auto. split; intros H.
    + apply is_hand_piece_ok in H. rewrite H. exists (in_hand h k). auto using in_hand_lt.
    + apply not_hand_kind in H. rewrite H. auto.
Qed.

(** C10: [added] succeeds exactly for hand kinds; it increments that count modulo 256 and keeps the others. *)
Lemma c10_added_pf : forall P h k, valid_hand h ->
  (In k hand_kinds ->
     exists h', hand_added P h k = Ret (Some h') /\ valid_hand h' /\ Hand_add P h k = Ret (h', true) /\
       (forall n, hand_count P h k = Ret (Some n) -> hand_count P h' k = Ret (Some ((n + 1) mod 256))) /\
       (forall j, j <> k -> hand_count P h' j = hand_count P h j)) /\
  (~ In k hand_kinds -> hand_added P h k = Ret None /\ Hand_add P h k = Ret (h, false)).
Proof.
  intros P h k V. unfold Hand_add. rewrite hand_added_ok by auto. split; intros H.
  - pose proof H as H'. apply is_hand_piece_ok in H. rewrite H. eexists. split; [reflexivity|].
    assert (V' : valid_hand (hand_put h k ((in_hand h k + 1) mod 256))) by (apply hand_put_valid; auto; lia).
    split; auto. split; auto. rewrite hand_count_ok by auto. split.
    + rewrite hand_count_ok, H by auto. intros n [= <-]. now rewrite in_hand_put_same.
    + intros j Hj. rewrite !hand_count_ok, in_hand_put_other by auto. auto.
  - apply not_hand_kind in H. rewrite H. auto.
Qed.

(** C10: [removed] succeeds exactly for hand kinds with a positive count; it decrements it and keeps the others. *)
Lemma c10_removed_pf : forall P h k, valid_hand h ->
  (forall n, hand_count P h k = Ret (Some n) -> 0 < n ->
     exists h', hand_removed P h k = Ret (Some h') /\ valid_hand h' /\ Hand_remove P h k = Ret (h', true) /\
       hand_count P h' k = Ret (Some (n - 1)) /\
       (forall j, j <> k -> hand_count P h' j = hand_count P h j)) /\
  (hand_count P h k = Ret None \/ hand_count P h k = Ret (Some 0) ->
     hand_removed P h k = Ret None /\ Hand_remove P h k = Ret (h, false)).
Proof.
  intros P h k V. unfold Hand_remove. rewrite hand_removed_ok, hand_count_ok by auto.
  destruct (is_hand_piece k) eqn:H; simpl andb; split.
  - intros n [= <-] Hn. replace (0 <? in_hand h k) with true by lia. eexists. split; [reflexivity|].
    apply is_hand_piece_ok in H. pose proof (in_hand_lt h k V).
    assert (V' : valid_hand (hand_put h k (in_hand h k - 1))) by (apply hand_put_valid; auto; lia).
    split; auto. split; auto. split.
    + rewrite hand_count_ok, in_hand_put_same by auto. apply is_hand_piece_ok in H. now rewrite H.
    + intros j Hj. rewrite !hand_count_ok, in_hand_put_other by auto. auto.
  - intros [E|E]; [discriminate|]. injection E as ->. auto.
  - intros n [=].
  - auto.
Qed.

(** C10: [is_hand_piece] and [all_hand_pieces] describe the seven hand kinds, in this order. *)
Lemma c10_hand_kinds_pf : (forall k, is_hand_piece k = true <-> In k hand_kinds) /\
  all_hand_pieces = Ret hand_kinds /\ NUM_HAND_PIECES = N.of_nat (length hand_kinds).
Proof. split; [exact is_hand_piece_ok|]. split; reflexivity. Qed.

(** C10: two hands are == iff all counts agree; and then they are the same value. *)
Lemma c10_eq_iff_same_counts_pf : forall P h h', valid_hand h -> valid_hand h' ->
  (hand_eqb h h' = true <-> forall k, hand_count P h k = hand_count P h' k) /\ (hand_eqb h h' = true <-> h = h').
Proof.
  intros P h h' V V'. rewrite hand_eqb_eq by auto. split; [|tauto]. split; [now intros ->|].
  intros E. apply hand_ext; auto. intros k Hk. specialize (E k). rewrite !hand_count_ok in E by auto.
  apply is_hand_piece_ok in Hk. rewrite Hk in E. congruence.
Qed.

(** C11: [removed] undoes [added] unless the counter wrapped (255 -> 0), and then it fails. *)
Lemma c11_removed_undoes_added_pf : forall P h k n, valid_hand h -> hand_count P h k = Ret (Some n) ->
  exists h', hand_added P h k = Ret (Some h') /\
    hand_removed P h' k = Ret (if n <? 255 then Some h else None).
Proof.
  intros P h k n V E. rewrite hand_count_ok in E by auto. destruct (is_hand_piece k) eqn:H; [|discriminate].
  injection E as <-. rewrite hand_added_ok, H by auto. eexists. split; [reflexivity|].
  pose proof H as H'. apply is_hand_piece_ok in H'. pose proof (in_hand_lt h k V) as L.
  assert (V' : valid_hand (hand_put h k ((in_hand h k + 1) mod 256))) by (apply hand_put_valid; auto; lia).
  rewrite hand_removed_ok, H by auto. rewrite in_hand_put_same by auto. simpl andb.
  destruct (N.ltb_spec (in_hand h k) 255).
  - rewrite N.mod_small by lia. replace (0 <? in_hand h k + 1) with true by lia. f_equal. f_equal.
    apply hand_ext; auto.
    + apply hand_put_valid; auto; [apply hand_put_valid; auto; lia|lia].
    + intros j Hj. destruct (pk_dec j k) as [->|D].
      * rewrite in_hand_put_same; auto; [lia|]. apply hand_put_valid; auto; lia.
      * rewrite !in_hand_put_other; auto.
  - replace (in_hand h k) with 255 by lia. reflexivity.
Qed.

(** C11: [added] always undoes [removed]. *)
Lemma c11_added_undoes_removed_pf : forall P h k h', valid_hand h -> hand_removed P h k = Ret (Some h') ->
  hand_added P h' k = Ret (Some h).
Proof.
  intros P h k h' V E. rewrite hand_removed_ok in E by auto. destruct (is_hand_piece k) eqn:H; [|discriminate].
  simpl andb in E. destruct (N.ltb_spec 0 (in_hand h k)) as [L|]; [|discriminate]. injection E as <-.
  pose proof H as H'. apply is_hand_piece_ok in H'. pose proof (in_hand_lt h k V) as L'.
  assert (V' : valid_hand (hand_put h k (in_hand h k - 1))) by (apply hand_put_valid; auto; lia).
  rewrite hand_added_ok, H by auto. rewrite in_hand_put_same by auto. do 2 f_equal.
  apply hand_ext; auto.
  - apply hand_put_valid; auto; lia.
  - intros j Hj. destruct (pk_dec j k) as [->|D].
    + rewrite in_hand_put_same; auto. lia.
    + rewrite !in_hand_put_other; auto.
Qed.

Lemma about_iff k o : about k o = true <-> hand_op_kind o = k.
Proof. unfold about. rewrite N.eqb_eq. split; [apply kind_number_inj|congruence]. Qed.
Lemma is_kind_existsb k : existsb (fun j => kind_number j =? kind_number k) hand_kinds = is_hand_piece k.
Proof. destruct k; reflexivity. Qed.

Lemma accepted_ok n o : accepted n o =
  match o with HAdd k => is_hand_piece k | HRemove k => is_hand_piece k && (0 <? n) end.
Proof. destruct o; unfold accepted; now rewrite is_kind_existsb. Qed.

Lemma hand_step_ok P h o : valid_hand h ->
  exists h', (match o with HAdd k => Hand_add P h k | HRemove k => Hand_remove P h k end)
             = Ret (h', accepted (in_hand h (hand_op_kind o)) o) /\ valid_hand h' /\
    forall k, In k hand_kinds -> in_hand h' k = if about k o then count_step (in_hand h k) o else in_hand h k.
Proof.
  intros V. destruct o as [k|k]; rewrite accepted_ok; cbn [hand_op_kind].
  - unfold Hand_add. rewrite hand_added_ok by auto. destruct (is_hand_piece k) eqn:H; eexists; (split; [reflexivity|]).
    + apply is_hand_piece_ok in H. split; [apply hand_put_valid; auto; lia|]. intros j Hj.
      destruct (about j (HAdd k)) eqn:X.
      * apply about_iff in X. simpl in X. subst j. now rewrite in_hand_put_same.
      * rewrite in_hand_put_other; auto. intros ->. assert (about j (HAdd j) = true) by now apply about_iff. congruence.
    + split; auto. intros j Hj. destruct (about j (HAdd k)) eqn:X; auto.
      apply about_iff in X. simpl in X. subst j. apply is_hand_piece_ok in Hj. congruence.
  - unfold Hand_remove. rewrite hand_removed_ok by auto. destruct (is_hand_piece k) eqn:H; simpl andb.
    + apply is_hand_piece_ok in H. destruct (N.ltb_spec 0 (in_hand h k)); eexists; (split; [reflexivity|]).
      * pose proof (in_hand_lt h k V). split; [apply hand_put_valid; auto; lia|]. intros j Hj.
        destruct (about j (HRemove k)) eqn:X.
        -- apply about_iff in X. simpl in X. subst j. now rewrite in_hand_put_same.
        -- rewrite in_hand_put_other; auto. intros ->. assert (about j (HRemove j) = true) by now apply about_iff. congruence.
      * split; auto. intros j Hj. destruct (about j (HRemove k)) eqn:X; auto.
        apply about_iff in X. simpl in X. subst j. simpl. lia.
    + eexists; (split; [reflexivity|]). split; auto. intros j Hj. destruct (about j (HRemove k)) eqn:X; auto.
      apply about_iff in X. simpl in X. subst j. apply is_hand_piece_ok in Hj. congruence.
Qed.

Lemma hand_run_ok P ops : forall h, valid_hand h ->
  exists h' bs, hand_run P h ops = Ret (h', bs) /\ valid_hand h' /\ length bs = length ops /\
    (forall k, In k hand_kinds -> in_hand h' k = counter (in_hand h k) ops k) /\
    (forall i o, nth_error ops i = Some o ->
       nth_error bs i = Some (accepted (counter (in_hand h (hand_op_kind o)) (firstn i ops) (hand_op_kind o)) o)).
Proof.
  induction ops as [|o ops IH]; intros h V.
  - exists h, []. split; auto. split; auto. split; auto. split; auto. intros [|i] o; discriminate.
  - destruct (hand_step_ok P h o V) as (h1 & E & V1 & C1). destruct (IH h1 V1) as (h2 & bs & E2 & V2 & L2 & C2 & F2).
    exists h2, (accepted (in_hand h (hand_op_kind o)) o :: bs). cbn [hand_run]. rewrite E. cbn [bind]. rewrite E2.
    split; auto. split; auto. split; [simpl; congruence|]. split.
    + intros k Hk. rewrite C2, C1 by auto. unfold counter. simpl. now destruct (about k o).
    + intros [|i] o'; simpl.
      * intros [= <-]. reflexivity.
      * intros Hi. rewrite (F2 i o' Hi). f_equal.
        destruct (in_dec pk_dec (hand_op_kind o') hand_kinds) as [I|I].
        -- rewrite C1 by auto. unfold counter. simpl. now destruct (about (hand_op_kind o') o).
        -- apply not_hand_kind in I. rewrite !accepted_ok. destruct o'; cbn [hand_op_kind] in I; rewrite I; reflexivity.
Qed.

(** C11: after any history of [Hand_add]/[Hand_remove], every count is that of an 8-bit wrapping counter, and every
    call returned what such a counter would make it return. *)
Lemma c11_histories_pf : forall P ops,
  exists h flags, hand_run P hand_new ops = Ret (h, flags) /\ length flags = length ops /\
    (forall k, In k hand_kinds -> hand_count P h k = Ret (Some (counter 0 ops k))) /\
    (forall i o, nth_error ops i = Some o ->
       nth_error flags i = Some (accepted (counter 0 (firstn i ops) (hand_op_kind o)) o)).
Proof.
  intros P ops. destruct (hand_run_ok P ops hand_new hand_new_valid) as (h & bs & E & V & L & C & F).
  exists h, bs. split; auto. split; auto. split.
  - intros k I. rewrite hand_count_ok, C, hand_new_count by auto. apply is_hand_piece_ok in I. now rewrite I.
  - intros i o Hi. rewrite (F i o Hi). now rewrite hand_new_count.
Qed.

Lemma hand_run_app P a b : forall h h1 f1, hand_run P h a = Ret (h1, f1) ->
  hand_run P h (a ++ b) = ('(h2, f2) <- hand_run P h1 b;; Ret (h2, f1 ++ f2)).
Proof.
  induction a as [|o a IH]; intros h h1 f1 E.
  - injection E as <- <-. simpl. destruct (hand_run P h b) as [[]| |]; reflexivity.
  - cbn [hand_run app] in *. apply bind_ret_inv in E as ([h0 b0] & E0 & E). rewrite E0. cbn [bind].
    apply bind_ret_inv in E as ([h2 f2] & E2 & E). injection E as -> <-.
    rewrite (IH _ _ _ E2). destruct (hand_run P h1 b) as [[]| |]; reflexivity.
Qed.

Lemma counter_app n a b k : counter n (a ++ b) k = counter (counter n a k) b k.
Proof. unfold counter. now rewrite filter_app, fold_left_app. Qed.
Lemma counter_adds_same k m : forall n, n + N.of_nat m < 256 -> counter n (repeat (HAdd k) m) k = n + N.of_nat m.
Proof.
  induction m; intros n H; simpl; [unfold counter; simpl; lia|].
  unfold counter in *. simpl. unfold about at 1. simpl. rewrite N.eqb_refl. simpl. rewrite N.mod_small by lia. rewrite IHm by lia. lia.
Qed.
Lemma counter_adds_other j k m : j <> k -> forall n, counter n (repeat (HAdd j) m) k = n.
Proof.
  intros N. induction m; intros n; simpl; auto. unfold counter in *. simpl.
  destruct (about k (HAdd j)) eqn:X; [|apply IHm]. apply about_iff in X. simpl in X. congruence.
Qed.

(** C11: the hands the other theorems quantify over are exactly those some history produces. *)
Lemma c11_reachable_hands_pf : forall P h,
  valid_hand h <-> exists ops flags, hand_run P hand_new ops = Ret (h, flags).
Proof.
  intros P h. split.
  - intros V.
    set (ops := flat_map (fun k => repeat (HAdd k) (N.to_nat (in_hand h k))) hand_kinds).
    destruct (hand_run_ok P ops hand_new hand_new_valid) as (h' & bs & E & V' & _ & C & _).
    exists ops, bs. rewrite E. do 2 f_equal. apply hand_ext; auto. intros k Hk. rewrite C, hand_new_count by auto.
    unfold ops, hand_kinds, flat_map. rewrite app_nil_r, !counter_app.
    assert (B : forall j, in_hand h j < 256) by (intros; now apply in_hand_lt).
    pose proof (B Pawn); pose proof (B Lance); pose proof (B Knight); pose proof (B Silver);
    pose proof (B Gold); pose proof (B Bishop); pose proof (B Rook).
    unfold hand_kinds in Hk. simpl in Hk.
    destruct Hk as [<-|[<-|[<-|[<-|[<-|[<-|[<-|[]]]]]]]];
      repeat match goal with
             | |- context [counter ?n (repeat (HAdd ?j) ?m) ?k] =>
                 first [rewrite (counter_adds_other j k m) by discriminate
                       |rewrite (counter_adds_same k m n) by lia]
             end; lia.
  - intros (ops & fl & E). destruct (hand_run_ok P ops hand_new hand_new_valid) as (h' & bs & E' & V' & _).
    rewrite E in E'. injection E' as -> ->. auto.
Qed.
