(** Proofs of the property theorems on positions (restated in Prop_Position.v). *)
From Verif Require Export LExt MLegality.
(*PROPHEAD
Property theorems C21-C30, C44, C50: positions
From Verif Require Import LSample.
*)

(** C21: every history of safe calls runs without panic, returns the flags of the abstract game and is seen
    by the observers as the abstract position. *)
Lemma c21_history_pf : forall P s0 a0 os,
  (s0 = pp_empty /\ a0 = a_empty) \/ (pp_startpos P = Ret s0 /\ a0 = a_opening) -> Forall valid_op os ->
  exists s, run_ops P s0 os = Ret (s, snd (a_ops a0 os)) /\ sees P s (fst (a_ops a0 os)).
Proof.
  intros P s0 a0 os I V.
  assert (wf s0 /\ aeq (abs s0) a0) as [W A].
  { destruct I as [[-> ->]|[E ->]]; [split; [apply pp_empty_wf|apply abs_empty]|].
    rewrite startpos_ok in E. injection E as <-. split; [apply startpos_wf|apply abs_startpos]. }
  rewrite run_ops_ok by auto. destruct (do_ops_abs s0 a0 os W V A) as [A1 A2]. pose proof (do_ops_wf s0 os W V) as W1.
  destruct (do_ops s0 os) as [s bs]. cbn [fst snd] in *. exists s. subst. split; auto. now apply sees_iff.
Qed.

(** C21: every reachable position is seen as an abstract position, which is unique. *)
Lemma c21_observed_pf : forall P s, reachable P s -> exists a, sees P s a /\
  forall b, sees P s b -> a_side a = a_side b /\ a_ply a = a_ply b /\ a_last a = a_last b /\
    (forall sq, valid_square sq -> a_board a sq = a_board b sq) /\
    (forall c k, In k hand_kinds -> a_hand a c k = a_hand b c k) /\ (forall c, a_king a c = a_king b c).
Proof.
  intros P s R. exists (abs s). split; [apply sees_abs; eapply reachable_wf; eauto|]. intros b H.
  assert (Q : aeq (abs s) b) by (eapply sees_iff; eauto; eapply reachable_wf; eauto).
  destruct Q as (A & B & C & D & E & F). do 5 (split; auto).
Qed.

(** C21: all bitboards of a reachable position say what is on the board. *)
Lemma c21_bitboards_pf : forall P s a, reachable P s -> sees P s a ->
  (forall c, exists b, player_bitboard P s c = Ret b /\
     bb_is P b (fun sq => match a_board a sq with Some (_, d) => same_color d c | None => false end)) /\
  (forall k, exists b, piece_kind_bitboard P s k = Ret b /\
     bb_is P b (fun sq => match a_board a sq with Some (j, _) => same_kind j k | None => false end)) /\
  (forall p, valid_piece p -> exists b, piece_bitboard P s p = Ret b /\
     bb_is P b (fun sq => match a_board a sq with
                          | Some (j, d) => same_kind j (kind_of p) && same_color d (color_of p)
                          | None => false
                          end)) /\
  (exists b, occupied_bitboard s = Ret b /\
     bb_is P b (fun sq => match a_board a sq with Some _ => true | None => false end)) /\
  (exists b, vacant_bitboard s = Ret b /\
     bb_is P b (fun sq => match a_board a sq with Some _ => false | None => true end)).
Proof.
  intros P s a R H. pose proof (reachable_wf P s R) as W. apply sees_iff in H; auto. destruct H as (_ & _ & C & _).
  pose proof (player_at_valid s Black W) as VB. pose proof (player_at_valid s White W) as VW.
  assert (Q : forall sq, valid_square sq -> a_board a sq = option_map parts_of (cell s sq)) by (intros; rewrite <- C; auto).
  split; [|split; [|split; [|split]]].
  - intros c. exists (player_at s c). split; [now apply player_bitboard_ok|]. split; [now apply player_at_valid|].
    intros sq V. rewrite bb_contains_ok, wf_player, Q by auto. now destruct (cell s sq).
  - intros k. exists (kind_at s k). split; [now apply piece_kind_bitboard_ok|]. split; [now apply kind_at_valid|].
    intros sq V. rewrite bb_contains_ok, wf_kind, Q by auto. now destruct (cell s sq).
  - intros p Vp. eexists. split; [now apply piece_bitboard_ok|]. split; [apply and_valid; auto using player_at_valid, kind_at_valid|].
    intros sq V. rewrite bb_contains_ok, member_and, wf_kind, wf_player, Q by auto. now destruct (cell s sq).
  - eexists. split; [now apply occupied_bitboard_ok|]. split; [now apply or_valid|].
    intros sq V. rewrite bb_contains_ok, member_or, !wf_player, Q by auto. destruct (cell s sq) as [p|]; auto. simpl. now destruct (color_of p).
  - eexists. split; [now apply vacant_bitboard_ok|]. split; [apply not_valid|].
    intros sq V. rewrite bb_contains_ok, member_not, member_or, !wf_player, Q by auto. destruct (cell s sq) as [p|]; auto. simpl. now destruct (color_of p).
Qed.

(** C21: the remaining observers. *)
Lemma c21_other_observers_pf : forall P s a, reachable P s -> sees P s a ->
  (forall p, valid_piece p -> pp_hand P s p =
     Ret (if can_be_in_hand (kind_of p) then Some (a_hand a (color_of p) (kind_of p)) else None)) /\
  (forall sq, valid_square sq -> PartialPosition_piece_at P s sq =
     Ret (OptionPiece (match a_board a sq with Some x => piece_repr (the_piece x) | None => 0 end))) /\
  last_compact_move s = option_map (fun m => CompactMove (packed m)) (a_last a) /\
  PartialPosition_last_compact_move s =
    OptionCompactMove (match a_last a with Some m => packed m | None => 0 end).
Proof.
  intros P s a R H. pose proof (reachable_wf P s R) as W. apply sees_iff in H; auto. destruct H as (_ & _ & C & D & E & _).
  assert (L : last_compact_move s = option_map (fun m => CompactMove (packed m)) (a_last a)).
  { rewrite <- E. simpl. unfold last_at, last_compact_move. pose proof (wf_last s W) as V. destruct (ocm_into (pp_last_move s)); auto.
    simpl in *. f_equal. now apply valid_compact_unpack. }
  split; [|split; [|split]]; auto.
  - intros p V. rewrite pp_hand_ok by auto. rewrite <- can_be_in_hand_eq. destruct (can_be_in_hand (kind_of p)) eqn:Hh; auto.
    rewrite <- D by now apply can_be_in_hand_iff. reflexivity.
  - intros sq V. unfold PartialPosition_piece_at. rewrite sq_index_ok by auto. cbn [bind].
    rewrite sub_w_ok by (unfold valid_square in V; lia). cbn [bind].
    rewrite (arr_get_ok _ _ (OptionPiece 0)) by (rewrite wf_board_len by auto; now apply snum_lt). f_equal.
    apply op_into_inj. change (cell s sq = op_into (OptionPiece (match a_board a sq with Some x => piece_repr (the_piece x) | None => 0 end))).
    rewrite <- C by auto. cbn [abs a_board]. pose proof (cell_valid s sq W) as Vc. destruct (cell s sq) as [p|]; auto. cbn [option_map valid_o] in *.
    rewrite the_piece_parts by auto. unfold op_into, nonzero_new. simpl. destruct (N.eqb_spec (piece_repr p) 0).
    + exfalso. destruct p as [p]. simpl in *. subst. apply valid_piece_In in Vc. vm_compute in Vc. intuition discriminate.
    + now destruct p.
  - unfold PartialPosition_last_compact_move. apply ocm_into_inj. unfold last_compact_move in L. rewrite L.
    unfold last_compact_move in L. assert (V := wf_last s W). rewrite L in V. destruct (a_last a) as [m|]; auto. simpl in V.
    unfold ocm_into, nonzero_new. simpl. destruct (N.eqb_spec (packed m) 0) as [Z|]; auto. exfalso.
    destruct V as (m' & Vm & Em). simpl in Em. rewrite Z in Em. destruct m' as [f t pr|p t]; simpl in Em; unfold valid_move, valid_square in Vm; lia.
Qed.

Lemma move_cases P s a m : reachable P s -> sees P s a -> valid_move m ->
  exists s' o, make_move P m s = Ret (s', o) /\ reachable P s' /\
    match o with Some _ => exists a', a_move a m = Some a' /\ sees P s' a' | None => s' = s /\ a_move a m = None end.
Proof.
  intros R H V. pose proof (reachable_wf P s R) as W. apply sees_iff in H; auto.
  pose proof (make_move_ok P s m W V) as E. pose proof (do_move_abs s m W V) as A. pose proof (a_move_aeq _ _ m V H) as B.
  pose proof (do_move_wf s m) as DW. destruct (do_move s m) as [s'|].
  - exists s', (Some tt). split; auto. split; [eapply reachable_move; eauto|]. simpl in A.
    destruct (a_move (abs s) m) as [a1|]; [|contradiction]. destruct (a_move a m) as [a2|]; [|contradiction]. exists a2. split; auto.
    apply sees_iff; [now apply (DW s')|]. eapply aeq_trans; eauto.
  - exists s, None. split; auto. split; auto. split; auto. destruct (a_move (abs s) m); [contradiction|]. destruct (a_move a m); auto; contradiction.
Qed.

(** C22: [make_move] always returns; it succeeds exactly for the moves that make sense. *)
Lemma c22_accepts_pf : forall P s a m, reachable P s -> sees P s a -> valid_move m ->
  exists s' o, make_move P m s = Ret (s', o) /\ (o = Some tt <-> makes_sense a m).
Proof.
  intros P s a m R H V. destruct (move_cases P s a m R H V) as (s' & o & E & _ & Q). exists s', o. split; auto.
  rewrite <- a_move_accepts. destruct o as [[]|].
  - destruct Q as (a' & Q & _). split; eauto.
  - destruct Q as [_ ->]. split; [discriminate|]. intros [? ?]. discriminate.
Qed.

(** C23: an accepted move has exactly the effect described. *)
Lemma c23_effect_pf : forall P s a m s', reachable P s -> sees P s a -> valid_move m ->
  make_move P m s = Ret (s', Some tt) -> exists a', sees P s' a' /\ effect a m a'.
Proof.
  intros P s a m s' R H V E. destruct (move_cases P s a m R H V) as (s1 & o & E1 & _ & Q). rewrite E in E1. injection E1 as <- <-.
  destruct Q as (a' & Q & S). exists a'. split; auto. now apply a_move_effect.
Qed.

(** C24: a rejected move leaves a [PartialPosition] as it was. *)
Lemma c24_partial_position_pf : forall P s s', reachable P s ->
  (forall m, valid_move m -> make_move P m s = Ret (s', None) -> s' = s) /\
  (forall c, valid_compact c -> make_compact_move P s c = Ret (s', false) -> s' = s).
Proof.
  intros P s s' R. pose proof (reachable_wf P s R) as W. split.
  - intros m V E. rewrite make_move_ok in E by auto. destruct (do_move s m); congruence.
  - intros c V E. rewrite make_compact_move_ok in E by auto. destruct (do_move s (unpack c)); congruence.
Qed.

(** C24: a rejected move leaves a [Position] as it was, including its list of moves. *)
Lemma c24_position_pf : forall P p p', reachable P (inner p) ->
  (forall m, valid_move m -> pos_make_move P p m = Ret (p', None) -> p' = p) /\
  (forall c, valid_compact c -> pos_make_compact_move P p c = Ret (p', false) -> p' = p).
Proof.
  intros P p p' R. pose proof (reachable_wf P _ R) as W. destruct p as [i n ms]. cbn [inner pos_inner] in *.
  assert (G : forall m o, valid_move m -> pos_make_move P (Position i n ms) m = Ret (p', o) -> is_some o = false -> p' = Position i n ms).
  { intros m o V E O. unfold pos_make_move in E. cbn [pos_inner] in E. rewrite make_move_ok in E by auto.
    destruct (do_move n m); cbn [bind] in E; injection E as <- <-; [discriminate|reflexivity]. }
  split.
  - intros m V E. eapply G; eauto.
  - intros c V E. unfold pos_make_compact_move in E. rewrite move_of_cm_unpack in E by auto. cbn [bind] in E.
    destruct (pos_make_move P (Position i n ms) (unpack c)) as [[p1 o]| |] eqn:E1; try discriminate. cbn [bind] in E. injection E as <- O.
    apply (G (unpack c) o); auto. now apply valid_compact_unpack.
Qed.

(** C24: so does a move a [LegalityChecker] rejects. *)
Lemma c24_legality_checker_pf : forall P L p p' m e, lc_make_move P L p m = Ret (p', RErr e) -> p' = p.
Proof.
  intros P L p p' m e. unfold lc_make_move. destruct (lc_is_legal L p m) as [[|e']| |]; cbn [bind]; try discriminate.
  - destruct (pos_make_move P p m) as [[p1 o]| |]; cbn [bind]; try discriminate. unfold debug_assert.
    destruct P, (is_some o); cbn [bind]; discriminate.
  - now intros [= <- <-].
Qed.

(** C25: a compact move is played like the move it packs, on every position. *)
Lemma c25_compact_pf : forall P m, valid_move m -> exists c, cm_of_move P m = Ret c /\
  (forall s, make_compact_move P s c = ('(s', o) <- make_move P m s;; Ret (s', is_some o))) /\
  (forall p, pos_make_compact_move P p c = ('(p', o) <- pos_make_move P p m;; Ret (p', is_some o))).
Proof.
  intros P m V. exists (CompactMove (packed m)). split; [now apply cm_of_move_ok|].
  assert (E : move_of_cm P (CompactMove (packed m)) = Ret m) by now apply move_of_cm_ok.
  split; intros x; [unfold make_compact_move|unfold pos_make_compact_move]; rewrite E; reflexivity.
Qed.

Lemma is_some_tt (o : option unit) : o = Some tt <-> is_some o = true.
Proof. destruct o as [[]|]; split; simpl; congruence. Qed.
(** C26: turn, ply and last move after a sequence of moves, accepted or not. *)
Lemma c26_moves_pf : forall P s ms, reachable P s -> Forall valid_move ms ->
  exists s' bs, run_ops P s (map OpMove ms) = Ret (s', bs) /\ length bs = length ms /\
    let acc := accepted_moves ms bs in
    side_to_move s' = (if Nat.even (length acc) then side_to_move s else opponent (side_to_move s)) /\
    ply s' = (ply s + N.of_nat (length acc)) mod 65536 /\
    last_move P s' = match rev acc with [] => last_move P s | m :: _ => Ret (Some m) end.
Proof.
  intros P s ms R V. revert s R. induction V as [|m ms Vm V IH]; intros s R.
  - exists s, []. simpl. split; auto. split; auto. split; auto. split; auto. unfold ply.
    rewrite N.add_0_r, N.mod_small; auto. apply wf_ply. eapply reachable_wf; eauto.
  - destruct (c21_observed_pf P s R) as (a & Ha & _). destruct (move_cases P s a m R Ha Vm) as (s1 & o & E & R1 & Q).
    destruct (IH s1 R1) as (s' & bs & E2 & L & A & B & C). exists s', (is_some o :: bs). cbn [map run_ops run_op]. rewrite E. cbn [bind].
    rewrite E2. cbn [bind]. split; auto. split; [simpl; congruence|].
    unfold accepted_moves in *. cbn [combine filter snd]. destruct o as [[]|].
    + destruct Q as (a' & Q & S). pose proof (a_move_effect a m a' Q) as (F1 & F2 & F3 & _). cbn [is_some map fst length].
      destruct S as (S1 & S2 & _ & _ & S5 & _), Ha as (H1 & H2 & _). rewrite A, B, C. rewrite S1, S2, S5, F1, F2, F3, H1, H2.
      split; [|split].
      * rewrite Nat.even_succ, <- Nat.negb_even. destruct (Nat.even _); simpl; auto. apply opponent_involutive.
      * rewrite N.add_mod_idemp_l by discriminate. f_equal. lia.
      * cbn [rev]. destruct (rev (map fst (filter snd (combine ms bs)))); auto.
    + destruct Q as [-> _]. auto.
Qed.

Lemma accepted_all ms : accepted_moves ms (repeat true (length ms)) = ms.
Proof. unfold accepted_moves. induction ms; simpl; congruence. Qed.
Lemma three_steps : exists u, plain the_startpos (firstn 3 king_dance) = Some u.
Proof. eexists. vm_compute. reflexivity. Qed.
Lemma dance_plies P n : exists s, played P s /\ ply s = (1 + (4 * N.of_nat n + 3)) mod 65536.
Proof.
  set (ms := dances n ++ firstn 3 king_dance).
  assert (V : Forall valid_move ms). { apply Forall_app. split; [apply dances_valid|]. repeat constructor; vm_compute; discriminate. }
  assert (exists t, plain the_startpos ms = Some t) as (t & Ht).
  { unfold ms. rewrite plain_app. destruct (dances_like n the_startpos (like_refl _)) as (t & -> & L).
    destruct three_steps as (u & Hu). destruct (plain_like _ _ _ _ L Hu) as (t' & E & _). eauto. }
  assert (RS : reachable P the_startpos). { exists the_startpos, [], []. split; [right; apply startpos_ok|]. split; auto. }
  pose proof (run_ops_ok P the_startpos (map OpMove ms) startpos_wf (moves_valid ms V)) as RO. rewrite (plain_ops _ _ _ Ht) in RO.
  destruct (c26_moves_pf P the_startpos ms RS V) as (s' & bs & E & _ & _ & B & _). rewrite RO in E. injection E as <- <-.
  exists t. split.
  - exists the_startpos, ms, (repeat true (length ms)). auto using startpos_ok.
  - rewrite accepted_all in B. rewrite B. unfold ms. rewrite app_length, dances_length. change (ply the_startpos) with 1.
    change (length (firstn 3 king_dance)) with 3%nat. f_equal. f_equal. lia.
Qed.
(** C26: [ply] wraps to 0 (a value [ply_set] refuses) in actual play. *)
Lemma c26_ply_wraps_in_play_pf : forall P, exists s, played P s /\ ply s = 0.
Proof.
  intros P. destruct (dance_plies P (N.to_nat 16383)) as (s & H & E). exists s. split; [exact H|]. rewrite E, N2Nat.id. reflexivity.
Qed.

(** C27: the pieces on the board and in the hands always add up to the full set. *)
Lemma c27_conserved_pf : forall P s a, played P s -> sees P s a ->
  (forall k, In k hand_kinds -> on_board_count a k + a_hand a Black k + a_hand a White k = full_set k) /\
  on_board_count a King = full_set King.
Proof.
  intros P s a R H. destruct (played_facts P s R) as (W & C & _). apply sees_iff in H; auto. apply (conserved_aeq _ _ H) in C. destruct C as [C1 C2].
  split.
  - intros k Hk. specialize (C1 k Hk). unfold total in C1. rewrite on_board_cnt. lia.
  - pose proof (C2 Black) as B. pose proof (C2 White) as Wh.
    rewrite on_board_cnt, cnt_kings, B, Wh. reflexivity.
Qed.

(** C27: hence a hand never holds more than the full set, at most 18, and captures never wrap the counter. *)
Lemma c27_no_overflow_pf : forall P s a, played P s -> sees P s a ->
  (forall c k, In k hand_kinds -> a_hand a c k <= full_set k /\ a_hand a c k <= 18) /\
  (forall from to pr s', valid_move (Normal from to pr) -> make_move P (Normal from to pr) s = Ret (s', Some tt) ->
     exists a', sees P s' a' /\
     match a_board a to with
     | Some (e, _) => a_hand a' (a_side a) (base_kind e) = a_hand a (a_side a) (base_kind e) + 1
     | None => forall c k, a_hand a' c k = a_hand a c k
     end).
Proof.
  intros P s a R H. destruct (played_facts P s R) as (W & C & _). pose proof H as H'. apply sees_iff in H'; auto. apply (conserved_aeq _ _ H') in C.
  assert (L : forall c k, In k hand_kinds -> a_hand a c k <= full_set k /\ a_hand a c k <= 18).
  { intros c k Hk. pose proof (conserved_le a c k C Hk). split; auto. assert (full_set k <= 18) by (destruct k; vm_compute; discriminate). lia. }
  split; auto. intros f t pr s' V E. pose proof (played_reachable P s R) as Re.
  assert (MS : makes_sense a (Normal f t pr)). { destruct (c22_accepts_pf P s a _ Re H V) as (s1 & o & E1 & I). rewrite E in E1. injection E1 as <- <-. now apply I. }
  destruct (c23_effect_pf P s a _ s' Re H V E) as (a' & S & _ & _ & _ & _ & k & k' & _ & _ & _ & _ & _ & EH & _). exists a'. split; auto.
  destruct MS as [_ MS]. destruct (a_board a t) as [[e d]|]; auto. destruct MS as [_ NK].
  rewrite EH, same_color_refl, same_kind_refl. cbn [andb].
  assert (Hb : In (base_kind e) hand_kinds). { apply can_be_in_hand_iff. rewrite base_hand. destruct (same_kind_spec e King); auto; contradiction. }
  destruct (L (a_side a) _ Hb). apply N.mod_small. lia.
Qed.

(** C28: in play each player has exactly one king, and [king_position] is its square. *)
Lemma c28_kings_pf : forall P s a c, played P s -> sees P s a -> exists sq, valid_square sq /\
  king_position P s c = Ret (Some sq) /\ forall t, valid_square t -> (a_board a t = Some (King, c) <-> t = sq).
Proof.
  intros P s a c R H. destruct (played_facts P s R) as (W & C & K). apply sees_iff in H; auto.
  apply (conserved_aeq _ _ H) in C. apply (kings_right_aeq _ _ H) in K. destruct (K c) as [K1 K2]. destruct C as [_ C].
  rewrite king_position_ok by auto. change (king_at s c) with (a_king (abs s) c). destruct H as (_ & _ & _ & _ & _ & HK). rewrite HK.
  assert (exists q, valid_square q /\ a_board a q = Some (King, c)) as (q & Vq & Bq).
  { destruct (cnt_found (fun x => same_kind (fst x) King && same_color (snd x) c) (a_board a)) as (q & I1 & I2); [rewrite C; discriminate|].
    exists q. split; [rewrite squares_eq in I1; now apply valid_square_In|].
    destruct (a_board a q) as [[k d]|]; [|discriminate]. cbn [hit fst snd] in I2. apply andb_true_iff in I2 as [I2 I3].
    apply same_kind_eq in I2. apply same_color_eq in I3. congruence. }
  exists q. apply K2 in Bq; auto. split; auto. split; [congruence|]. intros t Vt. rewrite <- K2 by auto. split; congruence.
Qed.

(** C28: [make_move] never captures a king, in any reachable position. *)
Lemma c28_no_king_capture_pf : forall P s a from to pr s', reachable P s -> sees P s a -> valid_move (Normal from to pr) ->
  make_move P (Normal from to pr) s = Ret (s', Some tt) -> forall c, a_board a to <> Some (King, c).
Proof.
  intros P s a f t pr s' R H V E c B. destruct (c22_accepts_pf P s a _ R H V) as (s1 & o & E1 & I). rewrite E in E1. injection E1 as <- <-.
  destruct I as [I _]. destruct (I eq_refl) as [_ MS]. rewrite B in MS. now destruct MS.
Qed.

(** C29: [king_position] is right as long as no edit removes or overwrites a king or adds a second one. What is missing:
    edits that remove a king from its square by [piece_set]; see [c29_king_position_refuted]. *)
Lemma c29_king_position_partial_pf : forall P s0 a0 os,
  (s0 = pp_empty /\ a0 = a_empty) \/ (pp_startpos P = Ret s0 /\ a0 = a_opening) ->
  Forall valid_op os -> tidy_history a0 os ->
  exists s bs, run_ops P s0 os = Ret (s, bs) /\
    forall c sq, valid_square sq ->
      (king_position P s c = Ret (Some sq) <-> piece_at P s sq = Ret (Some (piece_of King c))).
Proof.
  intros P s0 a0 os I V T. destruct (c21_history_pf P s0 a0 os I V) as (s & E & S). do 2 eexists. split; [exact E|].
  assert (K : kings_right (fst (a_ops a0 os))).
  { apply kings_right_ops; auto. destruct I as [[_ ->]|[_ ->]]; [apply kings_right_empty|apply kings_right_opening]. }
  intros c sq Vs. destruct S as (_ & _ & B & _ & _ & KP). rewrite B, KP by auto. destruct (K c) as [_ K2]. specialize (K2 sq Vs).
  split; intros Q.
  - injection Q as Q. apply K2 in Q. rewrite Q. reflexivity.
  - f_equal. apply K2. destruct (a_board (fst (a_ops a0 os)) sq) as [x|]; [|discriminate]. cbn [option_map] in Q.
    f_equal. apply the_piece_inj. change (the_piece (King, c)) with (piece_of King c). congruence.
Qed.

(** C29: the property fails: after putting a king and removing it again (never two kings of a color on the board),
    [king_position] still names the square, which is empty. *)
Lemma c29_king_position_refuted_pf : forall P, exists os s sq,
  Forall valid_op os /\ valid_square sq /\
  (forall n c, let a := fst (a_ops a_empty (firstn n os)) in
     forall s t, valid_square s -> valid_square t -> a_board a s = Some (King, c) -> a_board a t = Some (King, c) -> s = t) /\
  run_ops P pp_empty os = Ret (s, repeat true (length os)) /\
  king_position P s Black = Ret (Some sq) /\ piece_at P s sq = Ret None.
Proof.
  intros P. exists [OpPieceSet (square_at 5 9) (Some (piece_of King Black)); OpPieceSet (square_at 5 9) None].
  eexists. exists (square_at 5 9). split; [|split; [|split; [|split; [destruct P; vm_compute; reflexivity|split; destruct P; vm_compute; reflexivity]]]].
  - repeat constructor; try (vm_compute; discriminate); apply piece_of_valid.
  - split; discriminate.
  - intros n c. cbv zeta. intros s t Vs Vt. destruct n as [|[|n]]; cbn [firstn a_ops a_op fst snd].
    + discriminate.
    + cbn [a_put a_board a_empty]. destruct (same_square_spec s (square_at 5 9)); [|discriminate].
      destruct (same_square_spec t (square_at 5 9)); [congruence|discriminate].
    + rewrite firstn_nil. cbn [a_ops fst a_put a_board option_map]. destruct (same_square s _); [discriminate|]. cbn [a_empty a_board]. discriminate.
Qed.

(** C29: what [king_position] does say: the square where the last king of that color was put by [piece_set], for every
    edit of every reachable position. *)
Lemma c29_last_king_put_pf : forall P s sq x c, reachable P s -> valid_square sq ->
  match x with Some p => valid_piece p | None => True end ->
  exists s', piece_set P s sq x = Ret s' /\
    king_position P s' c =
      match x with
      | Some p => if same_kind (kind_of p) King && same_color (color_of p) c then Ret (Some sq) else king_position P s c
      | None => king_position P s c
      end.
Proof.
  intros P s sq x c R V Vx. pose proof (reachable_wf P s R) as W. exists (put s sq x). rewrite piece_set_ok by auto. split; auto.
  rewrite !king_position_ok by (auto using put_wf). rewrite king_at_put by auto. destruct x as [p|]; auto.
  destruct (same_kind (kind_of p) King), (same_color (color_of p) c); reflexivity.
Qed.

(** C30: [startpos] is the opening array, [empty] has nothing. *)
Lemma c30_startpos_pf : forall P, exists s, pp_startpos P = Ret s /\ reachable P s /\ sees P s a_opening.
Proof.
  intros P. exists the_startpos. split; [apply startpos_ok|]. split.
  - exists the_startpos, [], []. split; [right; apply startpos_ok|]. auto.
  - apply sees_iff; [apply startpos_wf|apply abs_startpos].
Qed.

(** C30: [empty]. *)
Lemma c30_empty_pf : forall P, reachable P pp_empty /\ sees P pp_empty a_empty.
Proof.
  intros P. split.
  - exists pp_empty, [], []. split; [now left|]. auto.
  - apply sees_iff; [apply pp_empty_wf|apply abs_empty].
Qed.

(** C44: in play, two positions are equal iff board, hands, side, ply and last move agree. *)
Lemma c44_played_pf : forall P s t, played P s -> played P t ->
  (pp_eqb s t = true <->
   side_to_move s = side_to_move t /\ ply s = ply t /\ last_move P s = last_move P t /\
   (forall sq, valid_square sq -> piece_at P s sq = piece_at P t sq) /\
   (forall p, valid_piece p -> pp_hand P s p = pp_hand P t p)).
Proof.
  intros P s t Rs Rt. destruct (played_facts P s Rs) as (Ws & _ & Ks), (played_facts P t Rt) as (Wt & _ & Kt).
  rewrite pp_eqb_eq by auto. split; [intros ->; auto 6|].
  intros (A & B & L & C & D). apply wf_ext; auto.
  assert (Bd : forall sq, valid_square sq -> a_board (abs s) sq = a_board (abs t) sq).
  { intros sq V. specialize (C sq V). rewrite !piece_at_ok in C by auto. injection C as C. simpl. now rewrite C. }
  split; [exact A|]. split; [exact B|]. split; [exact Bd|]. split; [|split].
  - intros c k Hk. specialize (D (piece_of k c) (piece_of_valid k c)). rewrite !pp_hand_ok in D by (auto using piece_of_valid).
    rewrite kind_of_of, color_of_of in D. apply is_hand_piece_ok in Hk. rewrite Hk in D. injection D as D. exact D.
  - rewrite !last_move_ok in L by auto. injection L as L. exact L.
  - assert (G : forall s t, kings_right s -> kings_right t -> (forall sq, valid_square sq -> a_board s sq = a_board t sq) ->
        forall c q, a_king s c = Some q -> a_king t c = Some q).
    { clear. intros s t Ks Kt Bd c q E. destruct (Ks c) as [V1 E1], (Kt c) as [_ E2]. specialize (V1 q E). apply E2; auto. rewrite <- Bd by auto. now apply E1. }
    intros c. pose proof (G _ _ Ks Kt Bd c) as G1. pose proof (G _ _ Kt Ks (fun q V => eq_sym (Bd q V)) c) as G2.
    destruct (a_king (abs s) c) as [q|]; [symmetry; auto|]. destruct (a_king (abs t) c) as [q|]; auto.
Qed.

(** C44: for arbitrary histories, equality is agreement of all observers (including [king_position]). *)
Lemma c44_reachable_pf : forall P s t, reachable P s -> reachable P t ->
  (pp_eqb s t = true <-> exists a, sees P s a /\ sees P t a) /\ (pp_eqb s t = true <-> s = t).
Proof.
  intros P s t Rs Rt. pose proof (reachable_wf P s Rs) as Ws. pose proof (reachable_wf P t Rt) as Wt.
  rewrite pp_eqb_eq by auto. split; [|tauto]. split.
  - intros ->. exists (abs t). auto using sees_abs.
  - intros (a & Hs & Ht). apply sees_iff in Hs, Ht; auto. apply wf_ext; auto. eapply aeq_trans; eauto. now apply aeq_sym.
Qed.

(** C50: one move on mirrored positions. *)
Lemma c50_move_pf : forall P s t a m, reachable P s -> reachable P t -> sees P s a -> sees P t (mirror a) -> valid_move m ->
  exists s' t' o a', make_move P m s = Ret (s', o) /\ make_move P (mirror_move m) t = Ret (t', o) /\
    sees P s' a' /\ sees P t' (mirror a').
Proof.
  intros P s t a m Rs Rt Hs Ht V. destruct (move_cases P s a m Rs Hs V) as (s' & o & E & R1 & Q).
  destruct (move_cases P t (mirror a) (mirror_move m) Rt Ht (mirror_move_valid m V)) as (t' & o' & E' & R2 & Q').
  pose proof (mirror_a_move a m V) as M. exists s', t'. destruct o as [[]|], o' as [[]|].
  - destruct Q as (a1 & Q & S), Q' as (a2 & Q' & S'). rewrite Q, Q' in M. simpl in M. exists (Some tt), a1.
    do 3 (split; auto). eapply aeq_sees; eauto.
  - destruct Q as (a1 & Q & S), Q' as [_ Q']. rewrite Q, Q' in M. contradiction.
  - destruct Q as [_ Q], Q' as (a2 & Q' & S'). rewrite Q, Q' in M. contradiction.
  - destruct Q as [-> Q], Q' as [-> Q']. exists None, a. auto.
Qed.

(** C50: whole histories: the mirrored history, with White to start, is accepted alike and reaches the mirrored position. *)
Lemma c50_history_pf : forall P s0 os, initial P s0 -> Forall valid_op os ->
  exists s t bs a, run_ops P s0 os = Ret (s, bs) /\ run_ops P s0 (OpSide White :: map mirror_op os) = Ret (t, true :: bs) /\
    sees P s a /\ sees P t (mirror a).
Proof.
  intros P s0 os I V.
  assert (exists a0, aeq (abs s0) a0 /\ aeq (a_set_side a0 White) (mirror a0)) as (a0 & A0 & M0).
  { destruct I as [->|E]; [exists a_empty; split; [apply abs_empty|apply mirror_empty]|].
    rewrite startpos_ok in E. injection E as <-. exists a_opening. split; [apply abs_startpos|apply mirror_opening]. }
  pose proof (initial_wf P s0 I) as W.
  assert (V' : Forall valid_op (OpSide White :: map mirror_op os)).
  { constructor; [now cbn|]. apply Forall_map. eapply Forall_impl; [|exact V]. apply mirror_op_valid. }
  rewrite !run_ops_ok by auto.
  pose proof (do_ops_wf s0 os W V) as W1. pose proof (do_ops_wf s0 _ W V') as W2.
  destruct (do_ops_abs s0 a0 os W V A0) as [A1 B1]. destruct (do_ops_abs s0 a0 _ W V' A0) as [A2 B2].
  destruct (mirror_a_ops a0 (a_set_side a0 White) os V M0) as [A3 B3].
  destruct (do_ops s0 os) as [s bs]. destruct (do_ops s0 (OpSide White :: map mirror_op os)) as [t cs]. cbn [fst snd] in *.
  cbn [a_ops a_op] in A2, B2. destruct (a_ops (a_set_side a0 White) (map mirror_op os)) as [a2 b2]. cbn [fst snd] in *.
  exists s, t, bs, (fst (a_ops a0 os)). split; auto. split; [do 2 f_equal; congruence|]. split; apply sees_iff; auto. eapply aeq_trans; eauto.
Qed.
