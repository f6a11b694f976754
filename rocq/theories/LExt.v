(** What an abstract position says about a concrete one, and equality of positions. *)
From Verif Require Export LMirror.

Lemma sees_iff P s a : wf s -> sees P s a <-> aeq (abs s) a.
Proof.
  intros W. split; intros H.
  - eapply sees_unique; [apply sees_abs; auto|exact H].
  - eapply aeq_sees; [exact H|now apply sees_abs].
Qed.
Lemma initial_wf P s : initial P s -> wf s.
Proof. intros [->|E]; [apply pp_empty_wf|]. rewrite startpos_ok in E. injection E as <-. apply startpos_wf. Qed.
Lemma played_reachable P s : played P s -> reachable P s.
Proof.
  intros (s0 & ms & bs & I & V & R). exists s0, (map OpMove ms), bs. split; [now right|]. split; auto.
  apply Forall_map. eapply Forall_impl; [|exact V]. auto.
Qed.
Lemma played_wf P s : played P s -> wf s.
Proof. intros H. eapply reachable_wf, played_reachable; eauto. Qed.
Lemma moves_valid ms : Forall valid_move ms -> Forall valid_op (map OpMove ms).
Proof. intros V. apply Forall_map. eapply Forall_impl; [|exact V]. auto. Qed.
Lemma reachable_run P s os s' bs : reachable P s -> Forall valid_op os -> run_ops P s os = Ret (s', bs) -> reachable P s'.
Proof.
  intros (s0 & os0 & bs0 & I & V0 & R0) V R. exists s0, (os0 ++ os), (bs0 ++ bs). split; auto. split; [now apply Forall_app|].
  clear I. revert s0 bs0 R0. induction os0 as [|o os0 IH]; intros s0 bs0 R0; simpl in *.
  - injection R0 as <- <-. exact R.
  - destruct (run_op P s0 o) as [[s1 b]| |] eqn:E1; try discriminate. cbn [bind] in *.
    destruct (run_ops P s1 os0) as [[s2 cs]| |] eqn:E2; try discriminate. cbn [bind] in *. injection R0 as <- <-.
    inversion_clear V0. rewrite (IH H0 s1 cs); auto.
Qed.
Lemma reachable_step P s o s' b : reachable P s -> valid_op o -> run_op P s o = Ret (s', b) -> reachable P s'.
Proof. intros R V E. apply (reachable_run P s [o] s' [b]); auto. simpl. now rewrite E. Qed.
Lemma reachable_move P s m s' o : reachable P s -> valid_move m -> make_move P m s = Ret (s', o) -> reachable P s'.
Proof. intros R V E. apply (reachable_step P s (OpMove m) s' (is_some o)); auto. simpl. now rewrite E. Qed.

Lemma ops_conserved a os : Forall valid_op os -> (forall o, In o os -> exists m, o = OpMove m) -> conserved a -> conserved (fst (a_ops a os)).
Proof.
  intros V. revert a. induction V as [|o os Vo V IH]; intros a F C; simpl; auto.
  destruct (F o) as [m ->]; [now left|]. cbn [a_op].
  assert (C1 : conserved (fst (a_try a m))). { unfold a_try. destruct (a_move a m) eqn:E; auto. eapply conserved_move; eauto. }
  destruct (a_try a m) as [a1 b]. specialize (IH a1 (fun o' I => F o' (or_intror I)) C1). destruct (a_ops a1 os). auto.
Qed.
Lemma played_facts P s : played P s -> wf s /\ conserved (abs s) /\ kings_right (abs s).
Proof.
  intros H. split; [eapply played_wf; eauto|]. destruct H as (s0 & ms & bs & I & V & R). rewrite startpos_ok in I. injection I as <-.
  pose proof (moves_valid ms V) as Vo. rewrite run_ops_ok in R by auto using startpos_wf.
  destruct (do_ops_abs the_startpos a_opening (map OpMove ms) startpos_wf Vo abs_startpos) as [A _].
  injection R as R. rewrite R in A. cbn [fst] in A. apply aeq_sym in A. split.
  - apply (conserved_aeq _ _ A). apply ops_conserved; auto using conserved_opening.
    intros o Ho. apply in_map_iff in Ho as (m & <- & _). eauto.
  - apply (kings_right_aeq _ _ A). apply kings_right_ops; auto using kings_right_opening, tidy_moves.
Qed.
Lemma conserved_le a c k : conserved a -> In k hand_kinds -> a_hand a c k <= full_set k.
Proof. intros [H _] Hk. specialize (H k Hk). unfold total in H. destruct c; lia. Qed.

(** ** Equality *)
Lemma nth_ext_list {A} (l l' : list A) n d : length l = n -> length l' = n -> (forall i, (i < n)%nat -> nth i l d = nth i l' d) -> l = l'.
Proof. intros L L' H. apply (nth_ext l l' d d); [congruence|]. intros i Hi. apply H. lia. Qed.
Lemma two_colors i : (i < 2)%nat -> exists c, i = cnum c.
Proof. intros H. destruct i as [|[|i]]; [exists Black|exists White|lia]; reflexivity. Qed.
Lemma some_kind i : (i < 14)%nat -> exists k, i = knum k.
Proof.
  intros H. do 14 (destruct i as [|i]; [first [exists Pawn; reflexivity|exists Lance; reflexivity|exists Knight; reflexivity
    |exists Silver; reflexivity|exists Gold; reflexivity|exists Bishop; reflexivity|exists Rook; reflexivity|exists King; reflexivity
    |exists ProPawn; reflexivity|exists ProLance; reflexivity|exists ProKnight; reflexivity|exists ProSilver; reflexivity
    |exists ProBishop; reflexivity|exists ProRook; reflexivity]|]). lia.
Qed.
Lemma some_square i : (i < 81)%nat -> exists q, valid_square q /\ i = snum q.
Proof. intros H. exists (Square (N.of_nat i + 1)). unfold valid_square. simpl. split; lia. Qed.
Lemma op_into_inj x y : op_into x = op_into y -> x = y.
Proof.
  destruct x as [x], y as [y]. unfold op_into, nonzero_new. simpl. destruct (N.eqb_spec x 0), (N.eqb_spec y 0); intros H; try discriminate; congruence.
Qed.
Lemma os_into_inj x y : os_into x = os_into y -> x = y.
Proof.
  destruct x as [x], y as [y]. unfold os_into, nonzero_new. simpl. destruct (N.eqb_spec x 0), (N.eqb_spec y 0); intros H; try discriminate; congruence.
Qed.
Lemma ocm_into_inj x y : ocm_into x = ocm_into y -> x = y.
Proof.
  destruct x as [x], y as [y]. unfold ocm_into, nonzero_new. simpl. destruct (N.eqb_spec x 0), (N.eqb_spec y 0); intros H; try discriminate; congruence.
Qed.
Lemma unpack_inj c d : valid_compact c -> valid_compact d -> unpack c = unpack d -> c = d.
Proof.
  intros Vc Vd E. apply valid_compact_unpack in Vc as [_ Vc], Vd as [_ Vd]. congruence.
Qed.

Lemma wf_ext s t : wf s -> wf t -> aeq (abs s) (abs t) -> s = t.
Proof.
  intros Ws Wt (A & B & C & D & E & F). cbn [abs a_side a_ply a_board a_hand a_last a_king] in *.
  assert (Cell : forall q, valid_square q -> cell s q = cell t q).
  { intros q V. specialize (C q V). pose proof (cell_valid s q Ws). pose proof (cell_valid t q Wt).
    destruct (cell s q), (cell t q); simpl in *; try discriminate; auto. injection C as C1 C2. f_equal.
    rewrite <- (piece_of_parts p), <- (piece_of_parts p0) by auto. congruence. }
  assert (H1 : pp_hands s = pp_hands t).
  { apply (nth_ext_list _ _ 2 hand_new); try apply wf_hands_len; auto. intros i Hi. destruct (two_colors i Hi) as [c ->].
    apply hand_ext; try (apply hand_at_valid; auto). exact (D c). }
  assert (H2 : pp_board s = pp_board t).
  { apply (nth_ext_list _ _ 81 (OptionPiece 0)); try apply wf_board_len; auto. intros i Hi. destruct (some_square i Hi) as (q & V & ->).
    apply op_into_inj. exact (Cell q V). }
  assert (H3 : pp_player_bb s = pp_player_bb t).
  { apply (nth_ext_list _ _ 2 bb_empty); try apply wf_player_len; auto. intros i Hi. destruct (two_colors i Hi) as [c ->].
    apply member_ext; try (apply player_at_valid; auto). intros q V. change (member (player_at s c) q = member (player_at t c) q).
    rewrite !wf_player by auto. now rewrite Cell. }
  assert (H4 : pp_piece_bb s = pp_piece_bb t).
  { apply (nth_ext_list _ _ 14 bb_empty); try apply wf_kind_len; auto. intros i Hi. destruct (some_kind i Hi) as [k ->].
    apply member_ext; try (apply kind_at_valid; auto). intros q V. change (member (kind_at s k) q = member (kind_at t k) q).
    rewrite !wf_kind by auto. now rewrite Cell. }
  assert (H5 : pp_last_move s = pp_last_move t).
  { apply ocm_into_inj. pose proof (wf_last s Ws). pose proof (wf_last t Wt). unfold last_at in E.
    destruct (ocm_into (pp_last_move s)), (ocm_into (pp_last_move t)); simpl in *; try discriminate; auto. injection E as E.
    f_equal. now apply unpack_inj. }
  assert (H6 : pp_king_square s = pp_king_square t).
  { apply (nth_ext_list _ _ 2 (OptionSquare 0)); try apply wf_king_len; auto. intros i Hi. destruct (two_colors i Hi) as [c ->].
    apply os_into_inj. exact (F c). }
  destruct s, t; simpl in *; congruence.
Qed.

Lemma list_eqb_eq {A} (eqb : A -> A -> bool) (V : A -> Prop) l l' : Forall V l -> Forall V l' ->
  (forall x y, V x -> V y -> (eqb x y = true <-> x = y)) -> list_eqb eqb l l' = true <-> l = l'.
Proof.
  intros F. revert l'. induction F as [|x l Vx F IH]; intros [|y l'] F' H; simpl; try (split; [discriminate|discriminate]); [tauto|].
  inversion_clear F'. rewrite andb_true_iff, (H x y), IH by auto. split; [intros [-> ->]; auto|intros [= -> ->]; auto].
Qed.
Lemma pp_eqb_eq s t : wf s -> wf t -> pp_eqb s t = true <-> s = t.
Proof.
  intros Ws Wt. unfold pp_eqb. rewrite !andb_true_iff, N.eqb_eq.
  rewrite (list_eqb_eq hand_eqb valid_hand), (list_eqb_eq op_eqb (fun _ => True)), !(list_eqb_eq bb_eqb (fun _ => True)),
    (list_eqb_eq os_eqb (fun _ => True)); try apply wf_hands; auto using hand_eqb_eq; try (apply Forall_forall; tauto).
  - unfold ocm_eqb. rewrite N.eqb_eq. destruct s as [s1 s2 s3 s4 s5 s6 [s7] s8], t as [t1 t2 t3 t4 t5 t6 [t7] t8]; cbn [pp_side pp_ply pp_hands pp_board pp_player_bb pp_piece_bb pp_last_move pp_king_square ocm_repr].
    split.
    + intros (((((((A & ->) & ->) & ->) & ->) & ->) & L) & ->). rewrite <- same_color_eqb in A. apply same_color_eq in A. subst.
      congruence.
    + intros [= -> -> -> -> -> -> -> ->]. rewrite <- same_color_eqb, same_color_refl. tauto.
  - intros [x] [y] _ _. unfold os_eqb. simpl. rewrite N.eqb_eq. split; congruence.
  - intros x y _ _. apply bb_eqb_eq.
  - intros x y _ _. apply bb_eqb_eq.
  - intros [x] [y] _ _. unfold op_eqb. simpl. rewrite N.eqb_eq. split; congruence.
Qed.

(** ** The ply number does wrap in play: kings stepping back and forth *)
Definition king_dance : list move :=
  [Normal (square_at 5 9) (square_at 5 8) false; Normal (square_at 5 1) (square_at 5 2) false;
   Normal (square_at 5 8) (square_at 5 9) false; Normal (square_at 5 2) (square_at 5 1) false].
Lemma do_move_ply s p l m :
  do_move (with_last_move (with_ply s p) l) m = option_map (fun s' => with_ply s' ((p + 1) mod 65536)) (do_move s m).
Proof.
  unfold do_move. change (cell (with_last_move (with_ply s p) l)) with (cell s).
  change (hand_at (with_last_move (with_ply s p) l)) with (hand_at s). change (pp_side (with_last_move (with_ply s p) l)) with (pp_side s).
  destruct m as [f t pr|q t]; cbv zeta.
  - destruct (cell s f) as [x|]; auto. destruct (same_color _ _); auto.
    destruct (if pr then _ else _) as [q|]; auto. destruct (cell s t) as [e|]; [destruct (_ && _); auto|]; reflexivity.
  - destruct (_ && _); auto. destruct (cell s t); auto.
Qed.
Lemma do_ops_app s os os' :
  do_ops s (os ++ os') = (let (s1, b1) := do_ops s os in let (s2, b2) := do_ops s1 os' in (s2, b1 ++ b2)).
Proof.
  revert s. induction os as [|o os IH]; intros s; simpl; [now destruct (do_ops s os')|]. destruct (do_op s o) as [s1 b].
  rewrite IH. destruct (do_ops s1 os) as [s2 b1]. now destruct (do_ops s2 os').
Qed.
Fixpoint plain (s : partial_position) (ms : list move) : option partial_position :=
  match ms with [] => Some s | m :: rest => match do_move s m with Some s' => plain s' rest | None => None end end.
Lemma plain_ops s ms s' : plain s ms = Some s' -> do_ops s (map OpMove ms) = (s', repeat true (length ms)).
Proof.
  revert s. induction ms as [|m ms IH]; intros s; simpl; [now intros [= ->]|]. unfold try_move. destruct (do_move s m) as [s1|]; [|discriminate].
  intros E. now rewrite (IH s1 E).
Qed.
Definition like (s t : partial_position) : Prop := exists p l, t = with_last_move (with_ply s p) l.
Lemma like_refl s : like s s.
Proof. exists (pp_ply s), (pp_last_move s). now destruct s. Qed.
Lemma like_trans s t u : like s t -> like t u -> like s u.
Proof. intros (p & l & ->) (p' & l' & ->). exists p', l'. reflexivity. Qed.
Lemma plain_like s t ms s' : like s t -> plain s ms = Some s' -> exists t', plain t ms = Some t' /\ like s' t'.
Proof.
  revert s t. induction ms as [|m ms IH]; intros s t L E; simpl in *; [injection E as <-; eauto|].
  destruct L as (p & l & ->). rewrite do_move_ply. destruct (do_move s m) as [s1|]; [|discriminate]. cbn [option_map].
  eapply IH; eauto. exists ((p + 1) mod 65536), (pp_last_move s1). now destruct s1.
Qed.
Lemma plain_app s ms ms' : plain s (ms ++ ms') = match plain s ms with Some s' => plain s' ms' | None => None end.
Proof. revert s. induction ms as [|m ms IH]; intros s; simpl; auto. destruct (do_move s m); auto. Qed.
Lemma dance_like : exists t, plain the_startpos king_dance = Some t /\ like the_startpos t.
Proof. eexists. split; [vm_compute; reflexivity|]. eexists _, _. reflexivity. Qed.
Fixpoint dances (n : nat) : list move := match n with O => [] | S n => king_dance ++ dances n end.
Lemma dances_like n : forall s, like the_startpos s -> exists t, plain s (dances n) = Some t /\ like the_startpos t.
Proof.
  induction n as [|n IH]; intros s L; cbn [dances]; [exists s; split; auto|]. rewrite plain_app.
  destruct dance_like as (t0 & E0 & L0). destruct (plain_like _ _ _ _ L E0) as (t & -> & Lt). apply IH. eapply like_trans; eauto.
Qed.
Lemma dances_length n : length (dances n) = (4 * n)%nat.
Proof. induction n; cbn [dances]; auto. rewrite app_length, IHn. simpl length. lia. Qed.
Lemma dances_valid n : Forall valid_move (dances n).
Proof.
  induction n; cbn [dances]; auto. apply Forall_app. split; auto.
  repeat constructor; vm_compute; discriminate.
Qed.
