(** Comparisons. *)
From Verif Require Export LExt MOrdHash SpecOrd.

Record good {A} (cmp : A -> A -> comparison) : Prop := {
  g_refl : forall a, cmp a a = Eq;
  g_opp : forall a b, cmp b a = CompOpp (cmp a b);
  g_eq : forall a b c, cmp a b = Eq -> cmp a c = cmp b c;
  g_lt : forall a b c, cmp a b = Lt -> cmp b c = Lt -> cmp a c = Lt
}.
Lemma good_order {A} (cmp : A -> A -> comparison) : good cmp -> total_order cmp.
Proof.
  intros [R O E L]. split; [exact R|]. split; [exact O|]. split; [|split; [|split; [exact E|]]].
  - intros a b H1 H2. rewrite O in H2. destruct (cmp a b); auto; [now contradiction H2|now contradiction H1].
  - intros a b c H1 H2. destruct (cmp a b) eqn:E1.
    + now rewrite (E a b c E1).
    + destruct (cmp b c) eqn:E2; [|now rewrite (L a b c E1 E2)|easy].
      assert (E3 : cmp a c = Lt). { rewrite (O c a), <- (E b c a E2), (O a b), E1. reflexivity. } now rewrite E3.
    + easy.
  - intros a b. rewrite (O a b). destruct (cmp a b); [left|left|right]; discriminate.
Qed.
Lemma good_ext {A} (c1 c2 : A -> A -> comparison) : (forall a b, c2 a b = c1 a b) -> good c1 -> good c2.
Proof. intros H [R O E L]. split; intros *; rewrite !H; eauto. Qed.
Lemma good_N : good N.compare.
Proof.
  split.
  - apply N.compare_refl.
  - intros a b. apply N.compare_antisym.
  - intros a b c H. apply N.compare_eq in H. now subst.
  - intros a b c. rewrite !N.compare_lt_iff. apply N.lt_trans.
Qed.
Lemma good_on {A B} (f : A -> B) cmp : good cmp -> good (fun a b => cmp (f a) (f b)).
Proof. intros [R O E L]. split; intros *; eauto. Qed.
Lemma good_then {A} (c1 c2 : A -> A -> comparison) : good c1 -> good c2 -> good (fun a b => cmp_then (c1 a b) (c2 a b)).
Proof.
  intros [R O E L] [R' O' E' L']. split; intros *; unfold cmp_then.
  - now rewrite R.
  - rewrite (O a b). destruct (c1 a b); simpl; auto.
  - destruct (c1 a b) eqn:E1; try discriminate. intros E2. rewrite (E a b c E1). destruct (c1 b c); auto.
  - destruct (c1 a b) eqn:E1; try discriminate.
    + rewrite (E a b c E1). destruct (c1 b c); auto. apply L'.
    + intros _. destruct (c1 b c) eqn:E2; try discriminate.
      * intros _. assert (E3 : c1 a c = Lt) by (rewrite (O c a), <- (E b c a E2), (O a b), E1; reflexivity). now rewrite E3.
      * intros _. now rewrite (L a b c E1 E2).
Qed.
Lemma good_list {A} (cmp : A -> A -> comparison) : good cmp -> good (list_cmp cmp).
Proof.
  intros [R O E L]. split.
  - induction a; simpl; auto. rewrite R. auto.
  - induction a as [|x a IH]; intros [|y b]; simpl; auto. rewrite (O x y). destruct (cmp x y); simpl; auto.
  - induction a as [|x a IH]; intros [|y b] [|z c]; simpl; auto; try discriminate.
    unfold cmp_then at 1. destruct (cmp x y) eqn:E1; try discriminate. intros H. rewrite (E x y z E1). unfold cmp_then. destruct (cmp y z); auto.
  - induction a as [|x a IH]; intros [|y b] [|z c]; simpl; auto; try discriminate. unfold cmp_then.
    destruct (cmp x y) eqn:E1; try discriminate.
    + rewrite (E x y z E1). destruct (cmp y z); auto. apply IH.
    + intros _. destruct (cmp y z) eqn:E2; try discriminate.
      * intros _. assert (E3 : cmp x z = Lt) by (rewrite (O z x), <- (E y z x E2), (O x y), E1; reflexivity). now rewrite E3.
      * intros _. now rewrite (L x y z E1 E2).
Qed.
Definition move_key (m : move) : list N :=
  match m with
  | Normal f t p => [0; sq_repr f; sq_repr t; if p then 1 else 0]
  | Drop p t => [1; piece_repr p; sq_repr t]
  end.
Lemma move_cmp_key a b : move_cmp a b = list_cmp N.compare (move_key a) (move_key b).
Proof.
  destruct a as [f t p|p t], b as [f' t' p'|p' t']; try reflexivity.
  - unfold move_key, move_cmp, sq_cmp. cbn [list_cmp]. change (0 ?= 0) with Eq. cbn [cmp_then].
    destruct (sq_repr f ?= sq_repr f'), (sq_repr t ?= sq_repr t'), p, p'; reflexivity.
  - unfold move_key, move_cmp, sq_cmp, piece_cmp. cbn [list_cmp]. change (1 ?= 1) with Eq. cbn [cmp_then].
    destruct (piece_repr p ?= piece_repr p'), (sq_repr t ?= sq_repr t'); reflexivity.
Qed.
Lemma good_move : good move_cmp.
Proof. eapply good_ext; [apply move_cmp_key|]. apply good_on, good_list, good_N. Qed.
Lemma good_hand : good hand_cmp.
Proof. unfold hand_cmp. apply (good_on hand_bytes), good_list, good_N. Qed.
Lemma good_pp : good pp_cmp.
Proof.
  unfold pp_cmp, color_cmp, ocm_cmp. apply good_then; [apply (good_on (fun s => color_as_u8 (pp_side s))), good_N|].
  apply good_then; [apply (good_on pp_ply), good_N|]. apply good_then; [apply (good_on pp_hands), good_list, good_hand|].
  apply good_then; [apply (good_on pp_board), good_list, (good_on op_repr), good_N|]. apply (good_on (fun s => ocm_repr (pp_last_move s))), good_N.
Qed.
Lemma good_pos : good pos_cmp.
Proof.
  unfold pos_cmp. apply good_then; [apply (good_on pos_initial), good_pp|]. apply good_then; [apply (good_on pos_inner), good_pp|].
  apply (good_on pos_moves), good_list, good_move.
Qed.
Lemma good_game {A} (cmp : A -> A -> comparison) : good cmp -> good (game_cmp cmp).
Proof.
  intros G. unfold game_cmp. apply good_then; [apply (good_on g_inner), G|]. apply (good_on (fun g => ogr_repr (g_resolution g))), good_N.
Qed.
Lemma list_partial a : forall b, list_partial_cmp int_partial_cmp a b = Some (list_cmp N.compare a b).
Proof.
  induction a as [|x a IH]; intros [|y b]; simpl; auto. destruct (x ?= y); simpl; auto.
Qed.

(** ** When comparisons say Equal *)
Lemma then_eq a b : cmp_then a b = Eq <-> a = Eq /\ b = Eq.
Proof. destruct a; simpl; split; try tauto; try discriminate; intros [? ?]; discriminate. Qed.
Lemma list_eq {A} (cmp : A -> A -> comparison) (V : A -> Prop) : (forall a b, V a -> V b -> (cmp a b = Eq <-> a = b)) ->
  forall l l', Forall V l -> Forall V l' -> (list_cmp cmp l l' = Eq <-> l = l').
Proof.
  intros H. induction l as [|x l IH]; intros [|y l'] F F'; simpl; try (split; [discriminate|discriminate]); [tauto|].
  inversion_clear F. inversion_clear F'. rewrite then_eq, H, IH by auto. split; [intros [-> ->]; auto|intros [= -> ->]; auto].
Qed.
Lemma ints_eq l l' : list_cmp N.compare l l' = Eq <-> l = l'.
Proof.
  apply (list_eq _ (fun _ => True)); [intros; apply N.compare_eq_iff|apply Forall_forall; tauto|apply Forall_forall; tauto].
Qed.
Lemma hand_cmp_eq a b : hand_cmp a b = Eq <-> a = b.
Proof. unfold hand_cmp. rewrite ints_eq. destruct a, b; simpl. split; congruence. Qed.
Lemma move_key_inj a b : move_key a = move_key b -> a = b.
Proof.
  destruct a as [[f] [t] p|[p] [t]], b as [[f'] [t'] p'|[p'] [t']]; cbn; intros [= ? ?]; subst; auto. destruct p, p'; congruence.
Qed.
Lemma move_cmp_eq a b : move_cmp a b = Eq <-> a = b.
Proof. rewrite move_cmp_key, ints_eq. split; [apply move_key_inj|now intros ->]. Qed.
Lemma move_eqb_eq a b : move_eqb a b = true <-> a = b.
Proof.
  destruct a as [[f] [t] p|[p] [t]], b as [[f'] [t'] p'|[p'] [t']]; cbn [move_eqb]; try (split; discriminate);
    unfold sq_eqb, piece_eqb; cbn [sq_repr piece_repr]; rewrite ?andb_true_iff, ?eqb_true_iff, ?N.eqb_eq.
  - split; [intros [[-> ->] ->]; auto|intros [= -> -> ->]; auto].
  - split; [intros [-> ->]; auto|intros [= -> ->]; auto].
Qed.
Lemma pp_cmp_eq s t : pp_cmp s t = Eq <->
  pp_side s = pp_side t /\ pp_ply s = pp_ply t /\ pp_hands s = pp_hands t /\ pp_board s = pp_board t /\ pp_last_move s = pp_last_move t.
Proof.
  unfold pp_cmp, color_cmp, ocm_cmp. rewrite !then_eq, !N.compare_eq_iff.
  rewrite (list_eq hand_cmp (fun _ => True)), (list_eq op_cmp (fun _ => True)); try (apply Forall_forall; tauto).
  - assert (L : ocm_repr (pp_last_move s) = ocm_repr (pp_last_move t) <-> pp_last_move s = pp_last_move t)
      by (destruct (pp_last_move s), (pp_last_move t); simpl; split; congruence).
    assert (C : color_as_u8 (pp_side s) = color_as_u8 (pp_side t) <-> pp_side s = pp_side t)
      by (destruct (pp_side s), (pp_side t); simpl; split; congruence). tauto.
  - intros [a] [b] _ _. unfold op_cmp. cbn. rewrite N.compare_eq_iff. split; congruence.
  - intros a b _ _. apply hand_cmp_eq.
Qed.
