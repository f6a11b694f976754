(** The model refines the abstract game of SpecPos.v. *)
From Verif Require Export LPosition.

Lemma finish_wf s m : wf s -> valid_move m -> wf (finish s m).
Proof.
  intros W V. destruct s. constructor; try apply W; unfold finish; pp_proj.
  - lia.
  - rewrite ocm_round; simpl; exists m; auto.
Qed.
Lemma do_move_wf s m s' : wf s -> valid_move m -> do_move s m = Some s' -> wf s'.
Proof.
  intros W V E. destruct m as [f t pr|p t]; destruct V as [V1 V2]; cbn [do_move] in E.
  - pose proof (cell_valid s f W) as Vp. destruct (cell s f) as [p|]; [|discriminate]. simpl in Vp.
    destruct (same_color (color_of p) (pp_side s)); [|discriminate].
    assert (Vq : valid_o valid_piece (if pr then option_map (fun k => piece_of k (color_of p)) (promoted (kind_of p)) else Some p)).
    { destruct pr; auto. destruct (promoted (kind_of p)); simpl; auto. apply piece_of_valid. }
    destruct (if pr then _ else _) as [q|]; [|discriminate].
    destruct (cell s t) as [e|].
    + cbn zeta in E. destruct (_ && _) eqn:C; [|discriminate]. injection E as <-. apply andb_prop in C as [_ C].
      apply can_be_in_hand_iff in C. apply finish_wf; [|split; auto].
      apply put_wf; auto. apply put_wf; auto; [|exact I]. apply set_hand_wf; auto. apply hand_put_valid; auto using hand_at_valid. lia.
    + injection E as <-. apply finish_wf; [|split; auto]. apply put_wf; auto. apply put_wf; auto. exact I.
  - cbn zeta in E. destruct (_ && _) eqn:C; [|discriminate]. apply andb_prop in C as [C Z]. apply andb_prop in C as [_ C].
    apply can_be_in_hand_iff in C. destruct (cell s t); [discriminate|]. injection E as <-.
    apply finish_wf; [|split; auto]. apply put_wf; auto. apply set_hand_wf; auto. pose proof (hand_at_valid s (color_of p) W).
    pose proof (in_hand_lt (hand_at s (color_of p)) (kind_of p)). apply hand_put_valid; auto. lia.
Qed.

(** ** Abstraction *)
Definition abs (s : partial_position) : apos :=
  APos (pp_side s) (pp_ply s) (fun sq => option_map parts_of (cell s sq)) (fun c k => in_hand (hand_at s c) k)
    (last_at s) (king_at s).
Definition aeq (a b : apos) : Prop :=
  a_side a = a_side b /\ a_ply a = a_ply b /\
  (forall sq, valid_square sq -> a_board a sq = a_board b sq) /\
  (forall c k, In k hand_kinds -> a_hand a c k = a_hand b c k) /\
  a_last a = a_last b /\ (forall c, a_king a c = a_king b c).
Lemma aeq_refl a : aeq a a.
Proof. repeat split. Qed.
Lemma aeq_sym a b : aeq a b -> aeq b a.
Proof. intros (A & B & C & D & E & F). repeat split; auto; intros; symmetry; auto. Qed.
Lemma aeq_trans a b c : aeq a b -> aeq b c -> aeq a c.
Proof.
  intros (A & B & C & D & E & F) (A' & B' & C' & D' & E' & F').
  split; [congruence|]. split; [congruence|]. split; [intros; rewrite C; auto|]. split; [intros; rewrite D; auto|].
  split; [congruence|]. intros. rewrite F; auto.
Qed.

Lemma sees_abs P s : wf s -> sees P s (abs s).
Proof.
  intros W. split; [reflexivity|]. split; [reflexivity|]. split; [|split; [|split]].
  - intros sq V. rewrite piece_at_ok by auto. simpl. pose proof (cell_valid s sq W) as Vc.
    destruct (cell s sq) as [p|]; simpl in *; auto. now rewrite the_piece_parts.
  - intros c. exists (hand_at s c). rewrite hand_of_a_player_ok by auto. split; auto. intros k.
    rewrite hand_count_ok by auto using hand_at_valid. now rewrite can_be_in_hand_eq.
  - now rewrite last_move_ok.
  - intros c. now rewrite king_position_ok.
Qed.
Lemma the_piece_inj x y : the_piece x = the_piece y -> x = y.
Proof. intros E. rewrite <- (parts_of_the x), <- (parts_of_the y), E. reflexivity. Qed.
Lemma sees_unique P s a b : sees P s a -> sees P s b -> aeq a b.
Proof.
  intros (A & B & C & D & E & F) (A' & B' & C' & D' & E' & F'). repeat split; try congruence.
  - intros sq V. specialize (C sq V). rewrite (C' sq V) in C.
    destruct (a_board a sq), (a_board b sq); cbn [option_map] in C; try discriminate; auto.
    f_equal. apply the_piece_inj. congruence.
  - intros c k Hk. destruct (D c) as (h & H1 & H2). destruct (D' c) as (h' & H1' & H2').
    rewrite H1 in H1'. injection H1' as <-. specialize (H2 k). rewrite H2' in H2. apply can_be_in_hand_iff in Hk. rewrite Hk in H2. congruence.
  - intros c. specialize (F c). rewrite F' in F. congruence.
Qed.
Lemma aeq_sees P s a b : aeq a b -> sees P s a -> sees P s b.
Proof.
  intros (A & B & C & D & E & F) (A' & B' & C' & D' & E' & F').
  split; [congruence|]. split; [congruence|]. split; [|split; [|split]].
  - intros sq V. rewrite <- C by auto. auto.
  - intros c. destruct (D' c) as (h & H1 & H2). exists h. split; auto. intros k. rewrite H2.
    destruct (can_be_in_hand k) eqn:Hk; auto. apply can_be_in_hand_iff in Hk. now rewrite D.
  - congruence.
  - intros c. now rewrite F', F.
Qed.

(** ** The abstract operations respect [aeq] *)
Lemma a_put_aeq a b sq x : aeq a b -> aeq (a_put a sq x) (a_put b sq x).
Proof.
  intros (A & B & C & D & E & F). repeat split; simpl; auto.
  - intros t V. now rewrite C.
  - intros c. destruct x as [[[] d]|]; auto. now rewrite F.
Qed.
Lemma a_set_hand_aeq a b c k n : aeq a b -> aeq (a_set_hand a c k n) (a_set_hand b c k n).
Proof. intros (A & B & C & D & E & F). repeat split; simpl; auto. intros d l Hl. now rewrite D. Qed.
Lemma a_set_hands_aeq a b c f g : aeq a b -> (forall k, In k hand_kinds -> f k = g k) -> aeq (a_set_hands a c f) (a_set_hands b c g).
Proof. intros (A & B & C & D & E & F) H. repeat split; simpl; auto. intros d l Hl. now rewrite D, H. Qed.
Lemma a_pass_aeq a b m : aeq a b -> aeq (a_pass a m) (a_pass b m).
Proof. intros (A & B & C & D & E & F). repeat split; simpl; auto; congruence. Qed.
Definition aeq_o (x y : option apos) : Prop :=
  match x, y with Some a, Some b => aeq a b | None, None => True | _, _ => False end.
Lemma a_move_aeq a b m : valid_move m -> aeq a b -> aeq_o (a_move a m) (a_move b m).
Proof.
  intros V H. pose proof H as (A & B & C & D & E & F). destruct m as [f t pr|p t]; destruct V as [V1 V2]; cbn [a_move].
  - rewrite <- (C f V1), <- (C t V2), <- A. destruct (a_board a f) as [[k c]|]; [|exact I].
    destruct (same_color c (a_side a)); [|exact I]. destruct (if pr then promoted k else Some k) as [k'|]; [|exact I].
    destruct (a_board a t) as [[e d]|].
    + destruct (same_color d (opponent c)); cbn [andb]; [|exact I]. destruct (can_be_in_hand (base_kind e)) eqn:Hh; [|exact I].
      apply can_be_in_hand_iff in Hh. rewrite <- D by auto. now apply a_pass_aeq, a_put_aeq, a_put_aeq, a_set_hand_aeq.
    + now apply a_pass_aeq, a_put_aeq, a_put_aeq.
  - rewrite <- (C t V2), <- A. destruct (same_color (color_of p) (a_side a)); cbn [andb]; [|exact I].
    destruct (can_be_in_hand (kind_of p)) eqn:Hh; [|exact I]. apply can_be_in_hand_iff in Hh. rewrite <- D by auto. cbn [andb].
    destruct (0 <? _); [|exact I]. destruct (a_board a t); [exact I|]. now apply a_pass_aeq, a_put_aeq, a_set_hand_aeq.
Qed.

(** ** Each step *)
Lemma abs_put s sq p : wf s -> valid_square sq -> valid_o valid_piece p ->
  aeq (abs (put s sq p)) (a_put (abs s) sq (option_map parts_of p)).
Proof.
  intros W V Vp. repeat split; try reflexivity.
  - intros t Vt. simpl. rewrite cell_put by auto. now destruct (same_square t sq).
  - intros c. simpl. rewrite king_at_put by auto. destruct p as [q|]; simpl; auto.
    unfold parts_of. destruct (kind_of q); try reflexivity. change (same_kind King King) with true. cbn [andb].
    destruct (same_color_spec (color_of q) c), (same_color_spec c (color_of q)); congruence.
Qed.
Lemma abs_set_hands s c h : wf s -> valid_hand h -> aeq (abs (set_hand s c h)) (a_set_hands (abs s) c (in_hand h)).
Proof.
  intros W V. repeat split; try reflexivity. intros d k Hk. simpl. rewrite hand_at_set by auto.
  destruct (same_color_spec c d), (same_color_spec d c); congruence.
Qed.
Lemma abs_set_hand s c k n : wf s -> In k hand_kinds -> n < 256 ->
  aeq (abs (set_hand s c (hand_put (hand_at s c) k n))) (a_set_hand (abs s) c k n).
Proof.
  intros W Hk Hn. repeat split; try reflexivity. intros d l Hl. simpl. rewrite hand_at_set by auto.
  pose proof (hand_at_valid s c W).
  replace (same_color d c) with (same_color c d) by (destruct c, d; reflexivity).
  destruct (same_color_spec c d) as [<-|]; cbn [andb]; auto.
  destruct (same_kind_spec l k) as [->|]; [now apply in_hand_put_same|apply in_hand_put_other; congruence].
Qed.
Lemma abs_finish s m : valid_move m -> aeq (abs (finish s m)) (a_pass (abs s) m).
Proof.
  intros V. repeat split. unfold abs, last_at, finish. pp_proj. cbn [a_last].
  rewrite ocm_round by (exists m; auto). simpl. now rewrite unpack_packed.
Qed.

Lemma do_move_abs s m : wf s -> valid_move m ->
  aeq_o (option_map abs (do_move s m)) (a_move (abs s) m).
Proof.
  intros W V. destruct m as [f t pr|p t]; pose proof V as [V1 V2]; cbn [do_move a_move abs a_board a_side a_hand].
  - pose proof (cell_valid s f W) as Vp. destruct (cell s f) as [p|]; [|exact I]. simpl in Vp. cbn [option_map].
    unfold parts_of at 1. destruct (same_color (color_of p) (pp_side s)); [|exact I].
    assert (Q : (if pr then option_map (fun k => piece_of k (color_of p)) (promoted (kind_of p)) else Some p) =
      option_map (fun k => piece_of k (color_of p)) (if pr then promoted (kind_of p) else Some (kind_of p))).
    { destruct pr; auto. simpl. now rewrite piece_of_parts. }
    rewrite Q. clear Q. destruct (if pr then promoted (kind_of p) else Some (kind_of p)) as [k'|]; [|exact I]. cbn [option_map].
    assert (Vq := piece_of_valid k' (color_of p)).
    assert (PP : option_map parts_of (Some (piece_of k' (color_of p))) = Some (k', color_of p)).
    { simpl. unfold parts_of. now rewrite kind_of_of, color_of_of. }
    destruct (cell s t) as [e|]; cbn [option_map].
    + unfold parts_of at 1. cbn zeta. destruct (same_color (color_of e) (opponent (color_of p))); cbn [andb]; [|exact I].
      destruct (can_be_in_hand (base_kind (kind_of e))) eqn:Hh; [|exact I]. apply can_be_in_hand_iff in Hh. cbn [option_map aeq_o].
      set (n := (in_hand _ _ + 1) mod 256). assert (Hn : n < 256) by (unfold n; lia). clearbody n.
      assert (W1 : wf (set_hand s (color_of p) (hand_put (hand_at s (color_of p)) (base_kind (kind_of e)) n))).
      { apply set_hand_wf; auto. apply hand_put_valid; auto using hand_at_valid. }
      eapply aeq_trans; [now apply abs_finish|]. apply a_pass_aeq.
      eapply aeq_trans; [apply abs_put; auto; apply put_wf; auto; exact I|]. rewrite PP. apply a_put_aeq.
      eapply aeq_trans; [apply abs_put; auto; exact I|]. apply (a_put_aeq _ _ f None). now apply abs_set_hand.
    + eapply aeq_trans; [now apply abs_finish|]. apply a_pass_aeq.
      eapply aeq_trans; [apply abs_put; auto; apply put_wf; auto; exact I|]. rewrite PP. apply a_put_aeq.
      apply (abs_put s f None); auto. exact I.
  - cbn zeta. destruct (same_color_spec (color_of p) (pp_side s)) as [EC|]; cbn [andb]; [|exact I]. rewrite <- EC.
    destruct (can_be_in_hand (kind_of p)) eqn:Hh; cbn [andb]; [|exact I]. apply can_be_in_hand_iff in Hh.
    destruct (0 <? in_hand (hand_at s (color_of p)) (kind_of p)) eqn:Z; [|exact I].
    destruct (cell s t) as [e|]; cbn [option_map aeq_o]; [exact I|].
    pose proof (hand_at_valid s (color_of p) W) as Vh. pose proof (in_hand_lt _ (kind_of p) Vh).
    assert (W1 : wf (set_hand s (color_of p) (hand_put (hand_at s (color_of p)) (kind_of p) (in_hand (hand_at s (color_of p)) (kind_of p) - 1)))).
    { apply set_hand_wf; auto. apply hand_put_valid; auto. lia. }
    eapply aeq_trans; [now apply abs_finish|]. apply a_pass_aeq.
    eapply aeq_trans; [now apply abs_put|]. apply (a_put_aeq _ _ t (Some (parts_of p))).
    apply abs_set_hand; auto. lia.
Qed.

Lemma make_compact_move_ok P s c : wf s -> valid_compact c ->
  make_compact_move P s c = Ret (match do_move s (unpack c) with Some s' => (s', true) | None => (s, false) end).
Proof.
  intros W V. unfold make_compact_move. rewrite move_of_cm_unpack by auto. cbn [bind].
  rewrite make_move_ok by (auto; now apply valid_compact_unpack). cbn [bind]. destruct (do_move s (unpack c)); reflexivity.
Qed.

(** the total function a call is *)
Definition try_move (s : partial_position) (m : move) : partial_position * bool :=
  match do_move s m with Some s' => (s', true) | None => (s, false) end.
Definition do_op (s : partial_position) (o : op) : partial_position * bool :=
  match o with
  | OpPieceSet sq x => (put s sq x, true)
  | OpMove m => try_move s m
  | OpCompactMove c => try_move s (unpack c)
  | OpSide c => (with_side s c, true)
  | OpPly n => if n =? 0 then (s, false) else (with_ply s n, true)
  | OpHand c h => (set_hand s c h, true)
  end.
Fixpoint do_ops (s : partial_position) (os : list op) : partial_position * list bool :=
  match os with
  | [] => (s, [])
  | o :: rest => let (s1, b) := do_op s o in let (s2, bs) := do_ops s1 rest in (s2, b :: bs)
  end.

Lemma run_op_ok P s o : wf s -> valid_op o -> run_op P s o = Ret (do_op s o).
Proof.
  intros W V. destruct o; cbn [run_op do_op valid_op] in *.
  - rewrite piece_set_ok; auto; apply V.
  - rewrite make_move_ok by auto. unfold try_move. cbn [bind]. destruct (do_move s m); reflexivity.
  - now rewrite make_compact_move_ok.
  - reflexivity.
  - unfold ply_set. now destruct (n =? 0).
  - now rewrite hand_store_ok.
Qed.
Lemma do_op_wf s o : wf s -> valid_op o -> wf (fst (do_op s o)).
Proof.
  intros W V. destruct o; cbn [do_op valid_op fst] in *.
  - apply put_wf; auto; apply V.
  - unfold try_move. destruct (do_move s m) eqn:E; cbn [fst]; auto. eapply do_move_wf; eauto.
  - unfold try_move. destruct (do_move s (unpack c)) eqn:E; cbn [fst]; auto. eapply do_move_wf; eauto. now apply valid_compact_unpack.
  - destruct s; constructor; apply W.
  - destruct (n =? 0); cbn [fst]; auto. destruct s; constructor; try apply W. exact V.
  - now apply set_hand_wf.
Qed.
Lemma try_move_abs s m : wf s -> valid_move m ->
  aeq (abs (fst (try_move s m))) (fst (a_try (abs s) m)) /\ snd (try_move s m) = snd (a_try (abs s) m).
Proof.
  intros W V. pose proof (do_move_abs s m W V) as H. unfold try_move, a_try.
  destruct (do_move s m), (a_move (abs s) m); simpl in *; try contradiction; auto using aeq_refl.
Qed.
Lemma do_op_abs s o : wf s -> valid_op o ->
  aeq (abs (fst (do_op s o))) (fst (a_op (abs s) o)) /\ snd (do_op s o) = snd (a_op (abs s) o).
Proof.
  intros W V. destruct o; cbn [do_op a_op valid_op fst snd] in *.
  - split; auto. apply abs_put; auto; apply V.
  - now apply try_move_abs.
  - apply try_move_abs; auto. now apply valid_compact_unpack.
  - split; auto. repeat split.
  - destruct (n =? 0); cbn [fst snd]; split; auto using aeq_refl.
  - split; auto. now apply abs_set_hands.
Qed.
Lemma a_try_aeq a b m : valid_move m -> aeq a b -> aeq (fst (a_try a m)) (fst (a_try b m)) /\ snd (a_try a m) = snd (a_try b m).
Proof.
  intros V H. pose proof (a_move_aeq a b m V H) as Q. unfold a_try.
  destruct (a_move a m), (a_move b m); simpl in *; try contradiction; auto.
Qed.
Lemma a_op_aeq a b o : valid_op o -> aeq a b -> aeq (fst (a_op a o)) (fst (a_op b o)) /\ snd (a_op a o) = snd (a_op b o).
Proof.
  intros V H. destruct o; cbn [a_op valid_op fst snd] in *.
  - split; auto. now apply a_put_aeq.
  - now apply a_try_aeq.
  - apply a_try_aeq; auto. now apply valid_compact_unpack.
  - split; auto. destruct H as (? & ? & ? & ? & ? & ?). repeat split; auto.
  - destruct (n =? 0); cbn [fst snd]; split; auto. destruct H as (? & ? & ? & ? & ? & ?). repeat split; auto.
  - split; auto. now apply a_set_hands_aeq.
Qed.

Lemma run_ops_ok P s os : wf s -> Forall valid_op os -> run_ops P s os = Ret (do_ops s os).
Proof.
  intros W V. revert s W. induction V as [|o os Vo V IH]; intros s W; simpl; auto.
  rewrite run_op_ok by auto. pose proof (do_op_wf s o W Vo). destruct (do_op s o) as [s1 b]. cbn [bind fst] in *.
  rewrite IH by auto. destruct (do_ops s1 os). reflexivity.
Qed.
Lemma do_ops_wf s os : wf s -> Forall valid_op os -> wf (fst (do_ops s os)).
Proof.
  intros W V. revert s W. induction V as [|o os Vo V IH]; intros s W; simpl; auto.
  pose proof (do_op_wf s o W Vo). destruct (do_op s o) as [s1 b]. cbn [fst] in *. specialize (IH s1 H).
  destruct (do_ops s1 os). auto.
Qed.
Lemma do_ops_abs s a os : wf s -> Forall valid_op os -> aeq (abs s) a ->
  aeq (abs (fst (do_ops s os))) (fst (a_ops a os)) /\ snd (do_ops s os) = snd (a_ops a os).
Proof.
  intros W V. revert s a W. induction V as [|o os Vo V IH]; intros s a W H; simpl; auto.
  pose proof (do_op_wf s o W Vo) as W1. pose proof (do_op_abs s o W Vo) as [A1 B1]. pose proof (a_op_aeq _ _ o Vo H) as [A2 B2].
  destruct (do_op s o) as [s1 b], (a_op (abs s) o) as [a1 b1], (a_op a o) as [a2 b2]. cbn [fst snd] in *.
  specialize (IH s1 a2 W1 (aeq_trans _ _ _ A1 A2)) as [I1 I2].
  destruct (do_ops s1 os), (a_ops a2 os). cbn [fst snd] in *. split; auto. congruence.
Qed.

(** ** The initial positions *)
Lemma pp_empty_wf : wf pp_empty.
Proof.
  constructor.
  - reflexivity.
  - reflexivity.
  - repeat constructor.
  - reflexivity.
  - apply Forall_forall. intros o H. apply repeat_spec in H. subst o. exact I.
  - reflexivity.
  - repeat constructor.
  - intros c sq V. unfold player_at, cell. cbn [pp_empty pp_player_bb pp_board].
    change (op_from None) with (OptionPiece 0). rewrite !nth_repeat. now rewrite member_empty.
  - reflexivity.
  - apply Forall_forall. intros o H. apply repeat_spec in H. subst o. apply bb_empty_valid.
  - intros k sq V. unfold kind_at, cell. cbn [pp_empty pp_piece_bb pp_board].
    change (op_from None) with (OptionPiece 0). rewrite !nth_repeat. now rewrite member_empty.
  - exact I.
  - reflexivity.
  - repeat constructor.
Qed.
Lemma abs_empty : aeq (abs pp_empty) a_empty.
Proof.
  repeat split.
  - intros sq V. simpl. unfold cell. cbn [pp_empty pp_board]. change (op_from None) with (OptionPiece 0). now rewrite nth_repeat.
  - intros c k Hk. simpl. unfold hand_at. cbn [pp_empty pp_hands]. destruct c, k; reflexivity.
  - intros c. simpl. destruct c; reflexivity.
Qed.

Definition the_startpos : partial_position :=
  Eval vm_compute in match pp_startpos Debug with Ret s => s | _ => pp_empty end.
Lemma startpos_ok P : pp_startpos P = Ret the_startpos.
Proof. destruct P; vm_compute; reflexivity. Qed.
Lemma startpos_wf : wf the_startpos.
Proof.
  constructor.
  - reflexivity.
  - reflexivity.
  - repeat constructor.
  - reflexivity.
  - unfold the_startpos. pp_proj. repeat (apply Forall_cons; [unfold cell_ok, valid_o; simpl; unfold valid_piece; simpl; try lia; exact I|]). constructor.
  - reflexivity.
  - repeat constructor.
  - intros c sq. destruct c; sweep_square sq.
  - reflexivity.
  - repeat constructor.
  - intros k sq. destruct k; sweep_square sq.
  - exact I.
  - reflexivity.
  - repeat constructor; vm_compute; discriminate.
Qed.
Lemma abs_startpos : aeq (abs the_startpos) a_opening.
Proof.
  repeat split.
  - intros sq. sweep_square sq.
  - intros c k Hk. destruct c, k; reflexivity.
  - intros c. destruct c; reflexivity.
Qed.

Lemma reachable_wf P s : reachable P s -> wf s.
Proof.
  intros (s0 & os & bs & [->|I] & V & R).
  - rewrite run_ops_ok in R by auto using pp_empty_wf. injection R as R. pose proof (do_ops_wf _ os pp_empty_wf V) as H. now rewrite R in H.
  - rewrite startpos_ok in I. injection I as <-. rewrite run_ops_ok in R by auto using startpos_wf. injection R as R.
    pose proof (do_ops_wf _ os startpos_wf V) as H. now rewrite R in H.
Qed.
