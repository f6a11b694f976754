(*PROPHEAD
Property theorems C67-C69: laws of positions
From Verif Require Import TPosition LSample.
*)
(** Algebraic laws of positions: relabelling, independence, counting. *)
From Verif Require Export SpecLaws.
From Verif Require Import TPosition LMirror LBitboard TBitboard.

(** ** C67: relabelling *)
Lemma relabel_move_valid f g m : permutes f g -> valid_move m -> valid_move (relabel_move f m).
Proof. intros F. destruct m; intros [V W]; split; auto; now apply F. Qed.
Lemma relabel_same f g s t : permutes f g -> valid_square s -> valid_square t ->
  same_square s (f t) = same_square (g s) t.
Proof.
  intros F Vs Vt. destruct (F s Vs) as (A & B & C & D), (F t Vt) as (A' & B' & C' & D'). apply eq_true_iff_eq.
  unfold same_square. rewrite !N.eqb_eq. split; intros H; apply square_inj in H.
  - now rewrite H, C'.
  - now rewrite <- H, D.
Qed.
Lemma relabel_aeq f g a b : permutes f g -> aeq a b -> aeq (relabel f g a) (relabel f g b).
Proof.
  intros G (A & B & C & D & E & F). unfold aeq. cbn [relabel a_side a_ply a_board a_hand a_last a_king].
  split; [congruence|]. split; [auto|]. split; [|split; [auto|split; [congruence|]]].
  - intros sq V. apply C. now apply G.
  - intros c. now rewrite F.
Qed.
Lemma relabel_put f g a sq x : permutes f g -> valid_square sq ->
  aeq (a_put (relabel f g a) (f sq) x) (relabel f g (a_put a sq x)).
Proof.
  intros F V. repeat split.
  - intros t Vt. simpl. now rewrite (relabel_same f g) by auto.
  - intros c. simpl. destruct x as [[k d]|]; simpl; auto. destruct k; auto. now destruct (same_color c d).
Qed.
Lemma relabel_set_hand f g a c k n : aeq (a_set_hand (relabel f g a) c k n) (relabel f g (a_set_hand a c k n)).
Proof. repeat split. Qed.
Lemma relabel_pass f g a m : aeq (a_pass (relabel f g a) (relabel_move f m)) (relabel f g (a_pass a m)).
Proof. repeat split. Qed.
Lemma relabel_a_move f g a m : permutes f g -> valid_move m ->
  aeq_o (a_move (relabel f g a) (relabel_move f m)) (option_map (relabel f g) (a_move a m)).
Proof.
  intros F V. destruct m as [s t pr|p t]; destruct V as [V1 V2]; cbn [relabel_move a_move relabel a_board a_side a_hand].
  - destruct (F s V1) as (_ & _ & -> & _), (F t V2) as (_ & _ & -> & _).
    destruct (a_board a s) as [[k c]|]; [|exact I].
    destruct (same_color c (a_side a)); [|exact I].
    destruct (if pr then promoted k else Some k) as [k'|]; [|exact I].
    assert (G : forall b b', aeq b (relabel f g b') -> aeq (a_pass (a_put (a_put b (f s) None) (f t) (Some (k', c)))
        (Normal (f s) (f t) pr)) (relabel f g (a_pass (a_put (a_put b' s None) t (Some (k', c))) (Normal s t pr)))).
    { intros b b' H. eapply aeq_trans; [|apply relabel_pass]. apply a_pass_aeq.
      eapply aeq_trans; [|apply relabel_put; auto]. apply a_put_aeq.
      eapply aeq_trans; [|apply relabel_put; auto]. now apply (a_put_aeq _ _ _ None). }
    destruct (a_board a t) as [[e d]|].
    + destruct (_ && _); [|exact I]. cbn [option_map aeq_o]. apply G. apply relabel_set_hand.
    + apply G. apply aeq_refl.
  - destruct (F t V2) as (_ & _ & -> & _). destruct (_ && _); [|exact I].
    destruct (a_board a t) as [[e d]|]; cbn [option_map aeq_o]; [exact I|].
    eapply aeq_trans; [|apply relabel_pass]. cbn [relabel_move]. apply a_pass_aeq.
    eapply aeq_trans; [|apply relabel_put; auto]. apply a_put_aeq. apply relabel_set_hand.
Qed.
Lemma relabel_try f g a m : permutes f g -> valid_move m ->
  aeq (fst (a_try (relabel f g a) (relabel_move f m))) (relabel f g (fst (a_try a m))) /\
  snd (a_try (relabel f g a) (relabel_move f m)) = snd (a_try a m).
Proof.
  intros F V. pose proof (relabel_a_move f g a m F V) as H. unfold a_try.
  destruct (a_move (relabel f g a) (relabel_move f m)), (a_move a m); simpl in *; try contradiction; auto using aeq_refl.
Qed.
Lemma relabel_op_valid f g o : permutes f g -> valid_op o -> valid_op (relabel_op f o).
Proof.
  intros F. destruct o; cbn [relabel_op valid_op]; auto.
  - intros [V Vx]. split; auto. now apply F.
  - now apply (relabel_move_valid f g).
  - intros V. apply valid_compact_unpack in V as [V _]. eexists. split; [apply (relabel_move_valid f g); [auto|exact V]|reflexivity].
Qed.
Lemma relabel_a_op f g a o : permutes f g -> valid_op o ->
  aeq (fst (a_op (relabel f g a) (relabel_op f o))) (relabel f g (fst (a_op a o))) /\
  snd (a_op (relabel f g a) (relabel_op f o)) = snd (a_op a o).
Proof.
  intros F V. destruct o; cbn [relabel_op valid_op a_op fst snd] in *.
  - split; auto. apply relabel_put; auto. apply V.
  - now apply relabel_try.
  - apply valid_compact_unpack in V as [V _]. rewrite unpack_packed by now apply (relabel_move_valid f g). now apply relabel_try.
  - split; auto. repeat split.
  - destruct (n =? 0); cbn [fst snd]; split; auto using aeq_refl.
  - split; auto. repeat split.
Qed.
Lemma relabel_a_ops f g a b os : permutes f g -> Forall valid_op os -> aeq b (relabel f g a) ->
  aeq (fst (a_ops b (map (relabel_op f) os))) (relabel f g (fst (a_ops a os))) /\
  snd (a_ops b (map (relabel_op f) os)) = snd (a_ops a os).
Proof.
  intros F V. revert a b. induction V as [|o os Vo V IH]; intros a b H; [auto|]. cbn [map a_ops].
  pose proof (relabel_a_op f g a o F Vo) as [A1 B1].
  pose proof (a_op_aeq _ _ (relabel_op f o) (relabel_op_valid f g o F Vo) H) as [A2 B2].
  destruct (a_op b (relabel_op f o)) as [b1 x1], (a_op (relabel f g a) (relabel_op f o)) as [b2 x2], (a_op a o) as [a1 x3].
  cbn [fst snd] in *. specialize (IH a1 b1 (aeq_trans _ _ _ A2 A1)) as [I1 I2].
  destruct (a_ops b1 (map (relabel_op f) os)), (a_ops a1 os). cbn [fst snd] in *. split; auto. congruence.
Qed.

(** C67: the calls which change a position do not know where the squares are: after any permutation of the 81 squares, every
    history is accepted alike and reaches the permuted position. *)
Lemma c67_history_pf : forall P f g s t a os, permutes f g -> reachable P s -> reachable P t ->
  sees P s a -> sees P t (relabel f g a) -> Forall valid_op os ->
  exists s' t' bs a', run_ops P s os = Ret (s', bs) /\ run_ops P t (map (relabel_op f) os) = Ret (t', bs) /\
    sees P s' a' /\ sees P t' (relabel f g a').
Proof.
  intros P f g s t a os F Rs Rt Hs Ht V. pose proof (reachable_wf P s Rs) as Ws. pose proof (reachable_wf P t Rt) as Wt.
  apply sees_iff in Hs, Ht; auto.
  assert (V' : Forall valid_op (map (relabel_op f) os)).
  { apply Forall_map. eapply Forall_impl; [|exact V]. intros o. now apply (relabel_op_valid f g). }
  rewrite !run_ops_ok by auto.
  pose proof (do_ops_wf s os Ws V) as W1. pose proof (do_ops_wf t _ Wt V') as W2.
  destruct (do_ops_abs s a os Ws V Hs) as [A1 B1]. destruct (do_ops_abs t _ _ Wt V' Ht) as [A2 B2].
  destruct (relabel_a_ops f g a (relabel f g a) os F V (aeq_refl _)) as [A3 B3].
  destruct (do_ops s os) as [s' bs]. destruct (do_ops t (map (relabel_op f) os)) as [t' cs]. cbn [fst snd] in *.
  exists s', t', bs, (fst (a_ops a os)). split; auto. split; [do 2 f_equal; congruence|]. split; apply sees_iff; auto.
  eapply aeq_trans; eauto.
Qed.

(** C67: so it is for histories from the empty board. *)
Lemma c67_from_empty_pf : forall P f g os, permutes f g -> Forall valid_op os ->
  exists s t bs a, run_ops P pp_empty os = Ret (s, bs) /\ run_ops P pp_empty (map (relabel_op f) os) = Ret (t, bs) /\
    sees P s a /\ sees P t (relabel f g a).
Proof.
  intros P f g os F V. destruct (c30_empty_pf P) as [R S]. apply c67_history_pf with a_empty; auto.
Qed.

(** C67: the left-right reflection is such a permutation. *)
Lemma c67_left_right_pf : permutes left_right left_right.
Proof.
  intros s V. unfold left_right, valid_square, square_at, file_of, rank_of in *. cbn [sq_repr].
  assert (E : forall x y, x < 9 -> y < 9 -> (9 * x + (y + 1) - 1) / 9 = x /\ (9 * x + (y + 1) - 1) mod 9 = y).
  { intros x y X Y. replace (9 * x + (y + 1) - 1) with (x * 9 + y) by lia.
    split; [rewrite N.div_add_l, N.div_small by lia; lia|]. rewrite N.add_comm, N.mod_add, N.mod_small by lia. auto. }
  pose proof (N.div_mod (sq_repr s - 1) 9 ltac:(lia)). pose proof (N.mod_lt (sq_repr s - 1) 9 ltac:(lia)).
  assert ((sq_repr s - 1) / 9 < 9) by (apply N.div_lt_upper_bound; lia).
  set (q := (sq_repr s - 1) / 9) in *. set (r := (sq_repr s - 1) mod 9) in *.
  replace (10 - (q + 1) - 1) with (8 - q) by lia. destruct (E (8 - q) r) as [-> ->]; [lia..|].
  replace (10 - (8 - q + 1) - 1) with q by lia.
  assert (Square (9 * q + (r + 1)) = s) by (apply square_inj; simpl; lia). split; [lia|]. split; [lia|]. auto.
Qed.

(** ** C68: independence *)
Lemma two_ops P s o1 o2 : wf s -> valid_op o1 -> valid_op o2 -> exists t,
  run_ops P s [o1; o2] = Ret (t, snd (a_ops (abs s) [o1; o2])) /\ wf t /\ aeq (abs t) (fst (a_ops (abs s) [o1; o2])).
Proof.
  intros W V1 V2. assert (V : Forall valid_op [o1; o2]) by auto. rewrite run_ops_ok by auto.
  pose proof (do_ops_wf s _ W V) as W'. destruct (do_ops_abs s (abs s) _ W V (aeq_refl _)) as [A B].
  destruct (do_ops s [o1; o2]) as [t bs]. cbn [fst snd] in *. subst bs. eauto.
Qed.
Lemma one_op P s o : wf s -> valid_op o -> exists t,
  run_ops P s [o] = Ret (t, snd (a_ops (abs s) [o])) /\ wf t /\ aeq (abs t) (fst (a_ops (abs s) [o])).
Proof.
  intros W V1. assert (V : Forall valid_op [o]) by auto. rewrite run_ops_ok by auto.
  pose proof (do_ops_wf s _ W V) as W'. destruct (do_ops_abs s (abs s) _ W V (aeq_refl _)) as [A B].
  destruct (do_ops s [o]) as [t bs]. cbn [fst snd] in *. subst bs. eauto.
Qed.
Lemma a_ops_two a o1 o2 : a_ops a [o1; o2] =
  (fst (a_op (fst (a_op a o1)) o2), [snd (a_op a o1); snd (a_op (fst (a_op a o1)) o2)]).
Proof. cbn [a_ops]. destruct (a_op a o1) as [a1 b1]. cbn [fst snd]. now destruct (a_op a1 o2). Qed.
Lemma same_square_eq s t : same_square s t = true <-> s = t.
Proof. unfold same_square. rewrite N.eqb_eq. split; [apply square_inj|now intros ->]. Qed.
Lemma same_color_eq c d : same_color c d = true <-> c = d.
Proof. destruct c, d; simpl; split; congruence. Qed.
(** what a put does to [king_position] *)
Definition put_king (x : option (piece_kind * color)) : option color :=
  match x with Some (King, d) => Some d | _ => None end.
Lemma king_put_parts x : king_put x = put_king (option_map parts_of x).
Proof. destruct x as [p|]; auto. simpl. unfold put_king, parts_of. now destruct (kind_of p). Qed.
Lemma put_put_comm a s t x y : s <> t -> (put_king x = None \/ put_king y = None \/ put_king x <> put_king y) ->
  aeq (a_put (a_put a s x) t y) (a_put (a_put a t y) s x).
Proof.
  intros N K. repeat split.
  - intros q Vq. simpl. destruct (same_square q t) eqn:A, (same_square q s) eqn:B; auto.
    apply same_square_eq in A, B. congruence.
  - intros c. simpl. destruct x as [[[] d]|], y as [[[] e]|]; auto. simpl in K.
    destruct K as [K|[K|K]]; [discriminate..|]. destruct (same_color c d) eqn:A, (same_color c e) eqn:B; auto.
    apply same_color_eq in A, B. congruence.
Qed.
Lemma commute_a_ops a o1 o2 : independent o1 o2 ->
  exists b1 b2, snd (a_ops a [o1; o2]) = [b1; b2] /\ snd (a_ops a [o2; o1]) = [b2; b1] /\
    aeq (fst (a_ops a [o1; o2])) (fst (a_ops a [o2; o1])).
Proof.
  intros I. destruct o1 as [s x|m1|m1|c|n|c h], o2 as [t y|m2|m2|d|n2|d j]; cbn [independent] in I; try contradiction;
    cbn [a_ops a_op]; repeat match goal with |- context [?n =? 0] => destruct (n =? 0) end; cbn [fst snd];
    do 2 eexists; (split; [reflexivity|]); (split; [reflexivity|]); auto using aeq_refl; try (repeat split; fail).
  - destruct I as [N K]. rewrite !king_put_parts in K. now apply put_put_comm.
  - repeat split. intros e k _. simpl. destruct (same_color e c) eqn:A, (same_color e d) eqn:B; auto.
    apply same_color_eq in A, B. congruence.
Qed.

(** C68: edits which touch different parts of a position can be made in either order: same flags, same position. *)
Lemma c68_commute_pf : forall P s o1 o2, reachable P s -> valid_op o1 -> valid_op o2 -> independent o1 o2 ->
  exists t b1 b2, run_ops P s [o1; o2] = Ret (t, [b1; b2]) /\ run_ops P s [o2; o1] = Ret (t, [b2; b1]).
Proof.
  intros P s o1 o2 R V1 V2 I. pose proof (reachable_wf P s R) as W.
  destruct (two_ops P s o1 o2 W V1 V2) as (t1 & E1 & W1 & A1), (two_ops P s o2 o1 W V2 V1) as (t2 & E2 & W2 & A2).
  destruct (commute_a_ops (abs s) o1 o2 I) as (b1 & b2 & F1 & F2 & A). rewrite F1 in E1. rewrite F2 in E2.
  assert (t1 = t2) as <-.
  { apply wf_ext; auto. eapply aeq_trans; [exact A1|]. eapply aeq_trans; [exact A|]. now apply aeq_sym. }
  eauto 6.
Qed.

Lemma put_put_same a s x y : (put_king x = None \/ put_king x = put_king y) -> aeq (a_put (a_put a s x) s y) (a_put a s y).
Proof.
  intros K. repeat split.
  - intros q Vq. simpl. now destruct (same_square q s).
  - intros c. simpl. destruct x as [[[] d]|], y as [[[] e]|]; auto; simpl in K; destruct K as [K|K]; try discriminate.
    injection K as ->. now destruct (same_color c e).
Qed.
Lemma overwrite_a_ops a o1 o2 : overwrites o2 o1 -> exists b,
  snd (a_ops a [o1; o2]) = [b; true] /\ snd (a_ops a [o2]) = [true] /\ aeq (fst (a_ops a [o1; o2])) (fst (a_ops a [o2])).
Proof.
  intros I. destruct o1 as [s x|m1|m1|c|n|c h], o2 as [t y|m2|m2|d|n2|d j]; cbn [overwrites] in I; try contradiction; cbn [a_ops a_op].
  - destruct I as [<- K]. eexists. do 2 (split; [reflexivity|]). cbn [fst]. rewrite !king_put_parts in K. now apply put_put_same.
  - eexists. do 2 (split; [reflexivity|]). repeat split.
  - apply N.eqb_neq in I. rewrite I. destruct (n =? 0); cbn [fst snd]; eexists; do 2 (split; [reflexivity|]); repeat split.
  - subst d. eexists. do 2 (split; [reflexivity|]). repeat split. intros e k _. simpl. now destruct (same_color e c).
Qed.

(** C68: an edit makes an earlier edit of the same thing pointless, unless that one put a king which the later one does not
    replace by a king of its color. *)
Lemma c68_overwrite_pf : forall P s o1 o2, reachable P s -> valid_op o1 -> valid_op o2 -> overwrites o2 o1 ->
  exists t b, run_ops P s [o1; o2] = Ret (t, [b; true]) /\ run_ops P s [o2] = Ret (t, [true]).
Proof.
  intros P s o1 o2 R V1 V2 I. pose proof (reachable_wf P s R) as W.
  destruct (two_ops P s o1 o2 W V1 V2) as (t1 & E1 & W1 & A1), (one_op P s o2 W V2) as (t2 & E2 & W2 & A2).
  destruct (overwrite_a_ops (abs s) o1 o2 I) as (b & F1 & F2 & A). rewrite F1 in E1. rewrite F2 in E2.
  assert (t1 = t2) as <-.
  { apply wf_ext; auto. eapply aeq_trans; [exact A1|]. eapply aeq_trans; [exact A|]. now apply aeq_sym. }
  eauto 6.
Qed.

Lemma unseen_a_move a m o : valid_move m -> valid_op o -> unseen a m o ->
  aeq_o (a_move (fst (a_op a o)) m) (option_map (fun b => fst (a_op b o)) (a_move a m)) /\ snd (a_op a o) = true /\
  forall b, snd (a_op b o) = true.
Proof.
  intros V Vo U. destruct o as [sq x|m1|m1|c|n|c h]; cbn [unseen] in U; try contradiction; cbn [a_op fst snd]; (split; [|auto]).
  - destruct U as [N K]. rewrite king_put_parts in K. set (y := option_map parts_of x) in *. clearbody y.
    assert (Q : forall q, In q (touched m) -> same_square q sq = false).
    { intros q Hq. apply same_square_neq. intros ->. auto. }
    destruct m as [f t pr|p t]; destruct V as [V1 V2]; cbn [touched] in Q; cbn [a_move a_put a_board a_side a_hand].
    + rewrite !Q by (simpl; auto). cbn [king_moved] in K.
      destruct (a_board a f) as [[k c]|]; [|exact I]. destruct (same_color c (a_side a)); [|exact I].
      destruct (if pr then promoted k else Some k) as [k'|] eqn:Pk; [|exact I].
      assert (KK : put_king y = None \/ put_king (Some (k', c)) = None \/ put_king y <> put_king (Some (k', c))).
      { destruct K as [K|K]; auto. right. destruct pr; [|injection Pk as <-; now destruct k; auto].
        apply promoted_not_king in Pk as [_ Nk]. left. now destruct k'. }
      assert (f <> sq /\ t <> sq) as [Nf Nt] by (split; intros ->; apply N; simpl; auto).
      assert (G : forall b b', aeq b (a_put b' sq y) -> aeq (a_pass (a_put (a_put b f None) t (Some (k', c))) (Normal f t pr))
          (a_put (a_pass (a_put (a_put b' f None) t (Some (k', c))) (Normal f t pr)) sq y)).
      { intros b b' H. apply aeq_trans with (a_pass (a_put (a_put (a_put b' f None) t (Some (k', c))) sq y) (Normal f t pr)); [|repeat split].
        apply a_pass_aeq. eapply aeq_trans; [|apply put_put_comm; auto; tauto]. apply a_put_aeq.
        eapply aeq_trans; [|apply put_put_comm; auto]. now apply (a_put_aeq _ _ _ None). }
      destruct (a_board a t) as [[e d]|].
      * destruct (_ && _); [|exact I]. cbn [option_map aeq_o]. apply G. repeat split.
      * apply G. apply aeq_refl.
    + destruct (_ && _) eqn:Hc; [|exact I]. rewrite Q by (simpl; auto). destruct (a_board a t); [exact I|]. cbn [option_map aeq_o].
      assert (t <> sq) by (intros ->; apply N; simpl; auto).
      assert (Kp : put_king (Some (parts_of p)) = None).
      { rewrite !Bool.andb_true_iff in Hc. destruct Hc as [[_ Hc] _]. unfold put_king, parts_of. now destruct (kind_of p). }
      apply aeq_trans with (a_pass (a_put (a_put (a_set_hand a (a_side a) (kind_of p) (a_hand a (a_side a) (kind_of p) - 1)) t (Some (parts_of p))) sq y) (Drop p t)); [|repeat split].
      apply a_pass_aeq. eapply aeq_trans; [|apply put_put_comm; auto]. apply a_put_aeq. repeat split.
  - assert (Sc : same_color (a_side a) c = false) by (destruct (a_side a), c; auto; congruence).
    destruct m as [f t pr|p t]; destruct V as [V1 V2]; cbn [a_move a_set_hands a_board a_side a_hand].
    + destruct (a_board a f) as [[k d]|]; [|exact I]. destruct (same_color d (a_side a)) eqn:Ed; [|exact I]. apply same_color_eq in Ed. subst d.
      destruct (if pr then promoted k else Some k) as [k'|] eqn:Pk; [|exact I].
      assert (G : forall b b', aeq b (a_set_hands b' c (in_hand h)) -> aeq (a_pass (a_put (a_put b f None) t (Some (k', a_side a))) (Normal f t pr))
          (a_set_hands (a_pass (a_put (a_put b' f None) t (Some (k', a_side a))) (Normal f t pr)) c (in_hand h))).
      { intros b b' H. apply aeq_trans with (a_pass (a_put (a_put (a_set_hands b' c (in_hand h)) f None) t (Some (k', a_side a))) (Normal f t pr)); [|repeat split].
        apply a_pass_aeq. apply a_put_aeq. now apply (a_put_aeq _ _ _ None). }
      destruct (a_board a t) as [[e d]|].
      * destruct (_ && _); [|exact I]. cbn [option_map aeq_o]. apply G. rewrite Sc. repeat split.
        intros d' l _. simpl. destruct (same_color d' (a_side a)) eqn:X, (same_color d' c) eqn:Y; cbn [andb]; auto. exfalso.
        apply same_color_eq in X, Y. congruence.
      * apply G. apply aeq_refl.
    + rewrite Sc. destruct (_ && _) eqn:Hc; [|exact I]. destruct (a_board a t); [exact I|]. cbn [option_map aeq_o].
      repeat split. intros d' l _. simpl. destruct (same_color d' (a_side a)) eqn:X, (same_color d' c) eqn:Y; cbn [andb]; auto. exfalso.
      apply same_color_eq in X, Y. congruence.
Qed.

(** C68: a move and an edit it does not see can be made in either order: the move is accepted before iff it is accepted after,
    and the position is the same. *)
Lemma c68_move_pf : forall P s a m o, reachable P s -> sees P s a -> valid_move m -> valid_op o -> unseen a m o ->
  exists t b, run_ops P s [OpMove m; o] = Ret (t, [b; true]) /\ run_ops P s [o; OpMove m] = Ret (t, [true; b]).
Proof.
  intros P s a m o R Sa V Vo U. pose proof (reachable_wf P s R) as W. apply sees_iff in Sa; auto.
  destruct (two_ops P s (OpMove m) o W V Vo) as (t1 & E1 & W1 & A1), (two_ops P s o (OpMove m) W Vo V) as (t2 & E2 & W2 & A2).
  assert (U' : unseen (abs s) m o).
  { destruct Sa as (A & _ & B & _). destruct o; cbn [unseen] in *; auto; [|congruence].
    destruct U as [N [K|K]]; split; auto. right. destruct m as [f t pr|]; auto. cbn [king_moved] in *. rewrite B; auto. apply V. }
  destruct (unseen_a_move (abs s) m o V Vo U') as (A & F & G).
  assert (exists b, snd (a_ops (abs s) [OpMove m; o]) = [b; true] /\ snd (a_ops (abs s) [o; OpMove m]) = [true; b] /\
    aeq (fst (a_ops (abs s) [OpMove m; o])) (fst (a_ops (abs s) [o; OpMove m]))) as (b & F1 & F2 & A3).
  { rewrite !a_ops_two. cbn [fst snd]. change (a_op (abs s) (OpMove m)) with (a_try (abs s) m).
    change (a_op (fst (a_op (abs s) o)) (OpMove m)) with (a_try (fst (a_op (abs s) o)) m). rewrite F, G. unfold a_try.
    destruct (a_move (abs s) m) as [a2|], (a_move (fst (a_op (abs s) o)) m) as [a3|]; cbn [option_map aeq_o] in A; try contradiction; cbn [fst snd].
    - exists true. do 2 (split; auto). now apply aeq_sym.
    - exists false. do 2 (split; auto). apply aeq_refl. }
  rewrite F1 in E1. rewrite F2 in E2. assert (t1 = t2) as <-.
  { apply wf_ext; auto. eapply aeq_trans; [exact A1|]. eapply aeq_trans; [exact A3|]. now apply aeq_sym. }
  eauto 6.
Qed.

(** C68: the condition on kings is needed: two kings of one color, put on different squares, leave [king_position] at the last
    one. *)
Lemma c68_kings_pf : forall P c, exists t u, 
  run_ops P pp_empty [OpPieceSet (square_at 1 1) (Some (piece_of King c)); OpPieceSet (square_at 9 9) (Some (piece_of King c))] =
    Ret (t, [true; true]) /\
  run_ops P pp_empty [OpPieceSet (square_at 9 9) (Some (piece_of King c)); OpPieceSet (square_at 1 1) (Some (piece_of King c))] =
    Ret (u, [true; true]) /\
  king_position P t c = Ret (Some (square_at 9 9)) /\ king_position P u c = Ret (Some (square_at 1 1)) /\
  (forall sq, valid_square sq -> piece_at P t sq = piece_at P u sq).
Proof.
  intros P c. set (o1 := OpPieceSet (square_at 1 1) (Some (piece_of King c))). set (o2 := OpPieceSet (square_at 9 9) (Some (piece_of King c))).
  assert (V1 : valid_op o1). { split; [unfold valid_square; simpl; lia|apply piece_of_valid]. }
  assert (V2 : valid_op o2). { split; [unfold valid_square; simpl; lia|apply piece_of_valid]. }
  pose proof pp_empty_wf as W.
  destruct (two_ops P pp_empty o1 o2 W V1 V2) as (t & E1 & W1 & A1), (two_ops P pp_empty o2 o1 W V2 V1) as (u & E2 & W2 & A2).
  exists t, u. split; [exact E1|]. split; [exact E2|].
  apply (sees_iff P) in A1, A2; auto. destruct A1 as (_ & _ & B1 & _ & _ & K1), A2 as (_ & _ & B2 & _ & _ & K2).
  split; [rewrite K1; now destruct c|]. split; [rewrite K2; now destruct c|].
  intros sq V. rewrite B1, B2 by auto. f_equal. f_equal. cbn [a_ops a_op o1 o2 fst a_put a_board].
  destruct (same_square sq (square_at 9 9)), (same_square sq (square_at 1 1)); reflexivity.
Qed.

(** ** C69: counting *)
Definition tally {A} (f : A -> bool) (l : list A) : N := sum (map (fun x => if f x then 1 else 0) l).
Lemma tally_filter {A} (f : A -> bool) l : N.of_nat (List.length (filter f l)) = tally f l.
Proof.
  unfold tally. induction l as [|x l IH]; auto. cbn [filter map sum fold_right]. unfold sum in IH. rewrite <- IH.
  destruct (f x); cbn [List.length]; lia.
Qed.
Lemma sum_add {A} (f g : A -> N) l : sum (map (fun x => f x + g x) l) = sum (map f l) + sum (map g l).
Proof. unfold sum. induction l as [|x l IH]; auto. cbn [map fold_right]. rewrite IH. lia. Qed.
Lemma sum_zero {A} (l : list A) : sum (map (fun _ => 0) l) = 0.
Proof. unfold sum. induction l as [|x l IH]; auto. Qed.
Lemma sum_swap {A B} (f : A -> B -> N) l ks :
  sum (map (fun x => sum (map (f x) ks)) l) = sum (map (fun k => sum (map (fun x => f x k) l)) ks).
Proof.
  induction ks as [|k ks IH]; [apply sum_zero|]. cbn [map]. change (sum (?a :: ?b)) with (a + sum b).
  rewrite <- IH. rewrite <- sum_add. f_equal.
Qed.
Lemma tally_add {A} (f g h : A -> bool) l :
  (forall x, In x l -> (if f x then 1 else 0) = (if g x then 1 else 0) + (if h x then 1 else 0)) -> tally f l = tally g l + tally h l.
Proof. intros H. unfold tally. rewrite <- sum_add. f_equal. apply map_ext_in. exact H. Qed.
Lemma tally_sum {A B} (f : A -> bool) (g : B -> A -> bool) ks l :
  (forall x, In x l -> (if f x then 1 else 0) = sum (map (fun k => if g k x then 1 else 0) ks)) ->
  tally f l = sum (map (fun k => tally (g k) l) ks).
Proof. intros H. unfold tally. rewrite <- (sum_swap (fun x k => if g k x then 1 else 0)). f_equal. apply map_ext_in. exact H. Qed.
Local Transparent cnt.
Lemma cnt_tally f b : N.of_nat (cnt f b) = tally (fun sq => match b sq with Some (j, d) => f (j, d) | None => false end) squares.
Proof.
  unfold cnt. generalize squares. intros l. rewrite tally_filter. unfold tally. f_equal. apply map_ext. intros x.
  unfold hit. now destruct (b x) as [[j d]|].
Qed.
Local Opaque cnt.
Lemma squares_In s : In s squares <-> valid_square s.
Proof. rewrite squares_eq. symmetry. apply valid_square_In. Qed.
Lemma bb_is_count P (r : res bitboard) b f : r = Ret b -> bb_is P b f -> counts P r (tally f squares).
Proof.
  intros -> [V H]. unfold counts. cbn [bind]. rewrite <- tally_filter. apply c13_count_is_cardinality_pf; auto.
  - apply NoDup_filter. rewrite squares_eq. apply all_squares_NoDup.
  - intros s. rewrite filter_In, squares_In. split; intros [Vs E]; split; auto; rewrite H in *; auto; congruence.
Qed.

(** C69: in every position the bitboards count up: the players' pieces and the vacant squares make 81, the fourteen kinds make
    the occupied squares, the two colours of a kind make the kind, the fourteen kinds of a player make the player. *)
Lemma c69_counts_pf : forall P s, reachable P s -> exists player kind each occupied vacant,
  (forall c, counts P (player_bitboard P s c) (player c)) /\
  (forall k, counts P (piece_kind_bitboard P s k) (kind k)) /\
  (forall k c, counts P (piece_bitboard P s (piece_of k c)) (each k c)) /\
  counts P (occupied_bitboard s) occupied /\ counts P (vacant_bitboard s) vacant /\
  occupied + vacant = 81 /\ player Black + player White = occupied /\ sum (map kind all_kinds) = occupied /\
  (forall k, each k Black + each k White = kind k) /\ (forall c, sum (map (fun k => each k c) all_kinds) = player c).
Proof.
  intros P s R. destruct (c21_observed_pf P s R) as (a & Sa & _).
  destruct (c21_bitboards_pf P s a R Sa) as (Pl & Kd & Ea & (bo & Eo & Ho) & (bv & Ev & Hv)).
  exists (fun c => tally (fun sq => match a_board a sq with Some (_, d) => same_color d c | None => false end) squares).
  exists (fun k => tally (fun sq => match a_board a sq with Some (j, _) => same_kind j k | None => false end) squares).
  exists (fun k c => tally (fun sq => match a_board a sq with Some (j, d) => same_kind j k && same_color d c | None => false end) squares).
  do 2 eexists. split; [|split; [|split; [|split; [|split; [|split; [|split; [|split; [|split]]]]]]]].
  - intros c. destruct (Pl c) as (b & E & H). now apply bb_is_count with b.
  - intros k. destruct (Kd k) as (b & E & H). now apply bb_is_count with b.
  - intros k c. destruct (Ea (piece_of k c) (piece_of_valid k c)) as (b & E & H). rewrite kind_of_of, color_of_of in H.
    now apply bb_is_count with b.
  - eapply bb_is_count; eassumption.
  - eapply bb_is_count; eassumption.
  - rewrite <- tally_add with (f := fun _ => true); [vm_compute; reflexivity|]. intros x _. now destruct (a_board a x).
  - symmetry. apply tally_add. intros x _. destruct (a_board a x) as [[j []]|]; reflexivity.
  - symmetry. apply tally_sum. intros x _. destruct (a_board a x) as [[[] d]|]; reflexivity.
  - intros k. symmetry. apply tally_add. intros x _. destruct (a_board a x) as [[j []]|]; cbn [same_color]; auto.
    + rewrite Bool.andb_true_r, Bool.andb_false_r. now destruct (same_kind j k).
    + rewrite Bool.andb_true_r, Bool.andb_false_r. now destruct (same_kind j k).
  - intros c. symmetry. apply tally_sum. intros x _. destruct (a_board a x) as [[[] d]|]; cbn [same_kind kind_number N.eqb Pos.eqb all_kinds map andb]; destruct c; try destruct d; reflexivity.
Qed.

(** C69: in play there are forty pieces: the occupied squares and the two hands; each player has one king on the board and at
    most 38 pieces in all hands; and of each kind (promoted or not) the board and the hands have the full set. *)
Lemma c69_play_pf : forall P s a, played P s -> sees P s a -> exists kind occupied,
  (forall k, counts P (piece_kind_bitboard P s k) (kind k)) /\ counts P (occupied_bitboard s) occupied /\
  occupied + sum (map (a_hand a Black) hand_kinds) + sum (map (a_hand a White) hand_kinds) = 40 /\ 2 <= occupied /\
  (forall c, counts P (piece_bitboard P s (piece_of King c)) 1) /\
  (forall k, In k hand_kinds ->
     kind k + match promoted k with Some l => kind l | None => 0 end + a_hand a Black k + a_hand a White k = full_set k).
Proof.
  intros P s a R Sa. pose proof (played_reachable P s R) as Re. destruct (c27_conserved_pf P s a R Sa) as [C CK].
  destruct (c21_bitboards_pf P s a Re Sa) as (Pl & Kd & Ea & (bo & Eo & Ho) & _).
  exists (fun k => tally (fun sq => match a_board a sq with Some (j, _) => same_kind j k | None => false end) squares).
  assert (B : forall k, In k all_kinds -> base_kind k = k -> on_board_count a k =
    tally (fun sq => match a_board a sq with Some (j, _) => same_kind j k | None => false end) squares +
    match promoted k with
    | Some l => tally (fun sq => match a_board a sq with Some (j, _) => same_kind j l | None => false end) squares
    | None => 0
    end).
  { intros k _ Bk. unfold on_board_count, count_squares. rewrite tally_filter.
    destruct (promoted k) as [l|] eqn:Pk.
    - apply tally_add. intros x _. destruct (a_board a x) as [[j d]|]; auto. cbn [fst].
      destruct k; try discriminate; injection Pk as <-; destruct j; reflexivity.
    - rewrite N.add_0_r. unfold tally. f_equal. apply map_ext. intros x. destruct (a_board a x) as [[j d]|]; auto. cbn [fst].
      destruct k; try discriminate; destruct j; reflexivity. }
  assert (Oc : tally (fun sq => match a_board a sq with Some _ => true | None => false end) squares =
    sum (map (fun k => on_board_count a k) [Pawn; Lance; Knight; Silver; Gold; Bishop; Rook; King])).
  { erewrite map_ext; [apply (tally_sum _ (fun k sq => match a_board a sq with Some x => same_kind (base_kind (fst x)) k | None => false end))|].
    - intros x _. destruct (a_board a x) as [[[] d]|]; reflexivity.
    - intros k. unfold on_board_count, count_squares. apply tally_filter. }
  exists (tally (fun sq => match a_board a sq with Some _ => true | None => false end) squares).
  split; [|split; [|split; [|split; [|split]]]].
  - intros k. destruct (Kd k) as (b & E & H). now apply bb_is_count with b.
  - eapply bb_is_count; eassumption.
  - rewrite Oc. unfold hand_kinds in C |- *. cbn [map sum fold_right].
    pose proof (C Pawn ltac:(simpl; tauto)). pose proof (C Lance ltac:(simpl; tauto)). pose proof (C Knight ltac:(simpl; tauto)).
    pose proof (C Silver ltac:(simpl; tauto)). pose proof (C Gold ltac:(simpl; tauto)). pose proof (C Bishop ltac:(simpl; tauto)).
    pose proof (C Rook ltac:(simpl; tauto)). cbn [full_set] in *. lia.
  - rewrite Oc. cbn [map sum fold_right]. cbn [full_set] in CK. lia.
  - intros c. destruct (Ea (piece_of King c) (piece_of_valid King c)) as (b & E & H). rewrite kind_of_of, color_of_of in H.
    pose proof (bb_is_count P _ b _ E H) as Q. destruct (played_facts P s R) as (W & Co & _). apply sees_iff in Sa; auto.
    apply (conserved_aeq _ _ Sa) in Co. destruct Co as [_ Co]. specialize (Co c). 
    pose proof (cnt_tally (fun x => same_kind (fst x) King && same_color (snd x) c) (a_board a)) as Ct. rewrite Co in Ct.
    change (N.of_nat 1) with 1 in Ct. rewrite Ct. exact Q.
  - intros k Hk. rewrite <- (C k Hk). rewrite B; auto; [simpl in *; tauto|]. now apply base_of_hand.
Qed.
