(** Proofs of the property theorems on the rules of shogi (restated in Prop_Rules.v). *)
From Verif Require Export SpecRules.
From Verif Require Import LSampleR.
From Verif Require Import LBase LSquare LPiece LBits LBitboard LHand LMove LPosition LRefine LAbstract LExt LEdit TPosition TLegal TGame.
From Verif Require TClient LClient.
(*PROPHEAD
Property theorems C72: the rules of shogi
From Verif Require Import LPiece LSample LSampleR LSampleW LRefine LSampleX.
*)

Lemma ret_inj {T} (x y : T) : Ret x = Ret y -> x = y.
Proof. now intros [= ->]. Qed.

(** ** The rules look at the board only *)
Lemma file_bounds s : valid_square s -> 1 <= file_of s <= 9.
Proof. unfold valid_square, file_of. intros H. assert ((sq_repr s - 1) / 9 <= 8) by (apply N.lt_succ_r, N.div_lt_upper_bound; lia). lia. Qed.
Lemma rank_bounds s : 1 <= rank_of s <= 9.
Proof. unfold rank_of. assert ((sq_repr s - 1) mod 9 < 9) by (apply N.mod_lt; lia). lia. Qed.
Lemma at_valid f r : 1 <= f <= 9 -> 1 <= r <= 9 -> valid_square (square_at f r).
Proof. intros. unfold valid_square, square_at. cbn [sq_repr]. lia. Qed.
Lemma at_file f r : 1 <= f <= 9 -> 1 <= r <= 9 -> file_of (square_at f r) = f.
Proof.
  intros. unfold file_of, square_at. cbn [sq_repr]. replace (9 * (f - 1) + r - 1) with ((r - 1) + (f - 1) * 9) by lia.
  rewrite N.div_add by lia. rewrite N.div_small by lia. lia.
Qed.
Lemma at_rank f r : 1 <= f <= 9 -> 1 <= r <= 9 -> rank_of (square_at f r) = r.
Proof.
  intros. unfold rank_of, square_at. cbn [sq_repr]. replace (9 * (f - 1) + r - 1) with ((r - 1) + (f - 1) * 9) by lia.
  rewrite N.mod_add by lia. rewrite N.mod_small by lia. lia.
Qed.
Lemma step_valid c s d t : step c s d = Some t -> valid_square t.
Proof.
  unfold step. set (f := (_ + _)%Z). set (r := (_ + _)%Z). destruct (_ && _ && _ && _)%Z eqn:E; [|discriminate]. intros [= <-].
  apply at_valid; lia.
Qed.
Lemma step_file c s d t : step c s d = Some t -> fst d = 0%Z -> file_of t = file_of s.
Proof.
  unfold step. destruct (_ && _ && _ && _)%Z eqn:E; [|discriminate]. intros [= <-] Z. rewrite Z in *. rewrite Z.mul_0_r, Z.add_0_r in *.
  rewrite N2Z.id. apply at_file; lia.
Qed.
Lemma ray_ext b b' c d n : (forall t, valid_square t -> b t = b' t) -> forall s, ray b c d n s = ray b' c d n s.
Proof.
  intros H. induction n as [|n IH]; intros s; cbn [ray]; auto. destruct (step c s d) as [t|] eqn:E; auto. rewrite <- (H t) by (eapply step_valid; eauto).
  destruct (b t); auto. now rewrite IH.
Qed.
Lemma reach_ext b b' c k s : (forall t, valid_square t -> b t = b' t) -> reach b c k s = reach b' c k s.
Proof. intros H. unfold reach. f_equal. apply flat_map_ext. intros d. now apply ray_ext. Qed.
Lemma attacks_ext b b' s t : (forall t, valid_square t -> b t = b' t) -> valid_square s -> attacks b s t = attacks b' s t.
Proof. intros H V. unfold attacks. rewrite (H s V). destruct (b' s) as [[k c]|]; auto. now rewrite (reach_ext b b'). Qed.
Lemma existsb_ext {A} (f g : A -> bool) l : (forall x, In x l -> f x = g x) -> existsb f l = existsb g l.
Proof. induction l as [|x l IH]; intros H; cbn [existsb]; auto. rewrite (H x) by now left. f_equal. apply IH. intros. apply H. now right. Qed.
Lemma check_ext b b' c : (forall t, valid_square t -> b t = b' t) -> check b c = check b' c.
Proof.
  intros H. unfold check. apply existsb_ext. intros s Is. apply In_squares in Is. unfold owned_by. rewrite (H s Is).
  destruct (match b' s with Some (_, d) => _ | None => _ end); auto.
  apply existsb_ext. intros t It. apply In_squares in It. unfold is_king_of. rewrite (H t It), (attacks_ext b b') by auto. reflexivity.
Qed.
Local Opaque check.
Lemma pawn_on_file_ext b b' c f : (forall t, valid_square t -> b t = b' t) -> pawn_on_file b c f = pawn_on_file b' c f.
Proof. intros H. unfold pawn_on_file. apply existsb_ext. intros s Is. apply In_squares in Is. now rewrite (H s Is). Qed.
Lemma moves_right_ext a b m : aeq a b -> valid_move m -> moves_right a m = moves_right b m.
Proof.
  intros (A & B & C & D & _) V. unfold moves_right. rewrite <- A. destruct m as [f t pr|p t]; destruct V as [V1 V2].
  - rewrite (C f V1). destruct (a_board b f) as [[k d]|]; auto. rewrite (attacks_ext _ _ f t C V1). unfold owned_by. now rewrite (C t V2).
  - destruct (same_color _ _); auto. destruct (can_be_in_hand (kind_of p)) eqn:K; auto. apply can_be_in_hand_iff in K. rewrite <- (D (a_side a) (kind_of p) K), (C t V2).
    now rewrite (pawn_on_file_ext _ _ (a_side a) (file_of t) C).
Qed.
Lemma base_in_hand_kinds e : e <> King -> In (base_kind e) hand_kinds.
Proof. intros N. apply can_be_in_hand_iff. destruct e; reflexivity || congruence. Qed.
Lemma after_aeq a b m : aeq a b -> valid_move m -> aeq (after a m) (after b m).
Proof.
  intros (A & B & C & D & E & F) V. unfold after. rewrite <- A, <- B. destruct m as [f t pr|p t]; destruct V as [V1 V2].
  - rewrite (C f V1), (C t V2). unfold aeq. cbn [a_side a_ply a_board a_hand a_last a_king]. repeat split; auto.
    + intros sq Vs. now rewrite (C sq Vs).
    + intros c k K. destruct (a_board b t) as [[e d]|]; rewrite ?(D c k K); reflexivity.
    + intros c. now rewrite (F c).
  - unfold aeq. cbn [a_side a_ply a_board a_hand a_last a_king]. repeat split; auto.
    + intros sq Vs. now rewrite (C sq Vs).
    + intros c k K. now rewrite (D c k K).
Qed.
Lemma safe_ext a b m : aeq a b -> valid_move m -> safe a m = safe b m.
Proof.
  intros H V. unfold safe. rewrite (moves_right_ext a b m H V). destruct (moves_right b m); [|reflexivity].
  destruct (after_aeq a b m H V) as (_ & _ & C & _). rewrite (check_ext _ _ _ C). destruct H as (-> & _). reflexivity.
Qed.
Local Opaque safe.
Lemma candidates_valid c m : In m (candidates c) -> valid_move m.
Proof.
  unfold candidates. rewrite in_app_iff, !in_flat_map. intros [(s & Is & I)|(k & Ik & I)].
  - apply In_squares in Is. apply in_flat_map in I as (t & It & I). apply In_squares in It. destruct I as [<-|[<-|[]]]; split; auto.
  - apply in_map_iff in I as (t & <- & It). apply In_squares in It. split; auto. apply piece_of_valid.
Qed.
Lemma mate_ext a b : aeq a b -> mate a = mate b.
Proof.
  intros H. unfold mate, no_way_out. destruct (H) as (S & _ & C & _). rewrite <- S, (check_ext _ _ _ C). destruct (check (a_board b) (a_side a)); [|reflexivity]. apply (f_equal negb).
  apply existsb_ext. intros m I. apply safe_ext; auto. eapply candidates_valid; eauto.
Qed.
Local Opaque mate.
Lemma legal_ext a b m : aeq a b -> valid_move m -> legal a m = legal b m.
Proof.
  intros H V. unfold legal. rewrite (safe_ext a b m H V). destruct (safe b m); [|reflexivity]. apply (f_equal negb). destruct m; [reflexivity|]. cbn [pawn_drop_mate].
  destruct (same_kind _ _); [|reflexivity]. apply mate_ext. now apply after_aeq.
Qed.

(** ** What follows from the rules *)
Local Transparent safe.
Lemma legal_right a m : legal a m = true -> moves_right a m = true.
Proof. unfold legal, safe. destruct (moves_right a m); auto. Qed.
Lemma same_color_true c d : same_color c d = true -> c = d.
Proof. now destruct c, d. Qed.
Local Transparent check.
Lemma right_sense a m : valid_move m -> left_safe a -> moves_right a m = true -> makes_sense a m.
Proof.
  unfold moves_right, makes_sense, left_safe. intros V L H. destruct m as [f t pr|p t]; destruct V as [V1 V2].
  - destruct (a_board a f) as [[k d]|] eqn:Bf; [|discriminate]. destruct (same_color (a_side a) d) eqn:Sc; [|discriminate]. apply same_color_true in Sc. subst d.
    destruct (attacks (a_board a) f t) eqn:At; [|discriminate]. destruct (owned_by (a_board a) (a_side a) t) eqn:Ow; [discriminate|]. cbn [negb] in H. split.
    + exists k. split; auto. intros ->. unfold can_promote in H. destruct (promoted k) as [l|] eqn:Pk; [|discriminate]. exists l. now apply promoted_spec.
    + destruct (a_board a t) as [[e d]|] eqn:Bt; auto. unfold owned_by in Ow. rewrite Bt in Ow. assert (d = opponent (a_side a)) by (destruct d, (a_side a); auto; discriminate).
      subst d. split; auto. intros ->. unfold check in L. apply not_true_iff_false in L. apply L. apply existsb_exists. exists f. split; [now apply In_squares|].
      unfold owned_by. rewrite Bf. replace (same_color (opponent (opponent (a_side a))) (a_side a)) with true by (destruct (a_side a); reflexivity).
      apply existsb_exists. exists t. split; [now apply In_squares|]. unfold is_king_of. rewrite Bt, same_color_refl. exact At.
  - destruct (same_color (a_side a) (color_of p)) eqn:Sc; [|discriminate]. apply same_color_true in Sc. destruct (can_be_in_hand (kind_of p)) eqn:K; [|discriminate].
    destruct (0 <? a_hand a (a_side a) (kind_of p)) eqn:Z; [|discriminate]. destruct (a_board a t); [discriminate|]. apply can_be_in_hand_iff in K. apply N.ltb_lt in Z. auto.
Qed.
Local Opaque check.
Lemma after_move a m a' : valid_move m -> (forall k, In k hand_kinds -> a_hand a (a_side a) k < 255) -> a_move a m = Some a' -> aeq a' (after a m).
Proof.
  intros V Hh E. assert (MS : makes_sense a m) by (apply a_move_accepts; eauto). pose proof (a_move_effect a m a' E) as (X1 & X2 & X3 & X4).
  unfold after. destruct m as [f t pr|p t].
  - destruct X4 as (NE & k & k' & Bf & Pr & Bf' & Bt' & Bo & Hd & Kg). rewrite Bf. unfold aeq. cbn [a_side a_ply a_board a_hand a_last a_king]. repeat split; auto.
    + intros sq _. destruct (same_square_spec sq t) as [->|N1].
      * rewrite Bt'. destruct pr; [|now subst]. apply promoted_spec in Pr. now rewrite Pr.
      * destruct (same_square_spec sq f) as [->|N2]; auto.
    + intros c j J. rewrite Hd. destruct (a_board a t) as [[e d]|] eqn:Bt; auto. destruct (same_color_spec c (a_side a)) as [->|]; cbn [andb]; auto.
      destruct (same_kind_spec j (base_kind e)) as [->|]; auto. apply N.mod_small. specialize (Hh _ J). lia.
  - destruct X4 as (Bt & Bo & Hd & Kg). unfold aeq. cbn [a_side a_ply a_board a_hand a_last a_king]. repeat split; auto.
    intros sq _. destruct (same_square_spec sq t) as [->|N1]; auto.
Qed.
Lemma after_side a m : a_side (after a m) = opponent (a_side a).
Proof. now destruct m. Qed.
Lemma opponent_twice c : opponent (opponent c) = c.
Proof. now destruct c. Qed.
Lemma left_safe_after a m : safe a m = true -> left_safe (after a m).
Proof. unfold safe, left_safe. rewrite after_side, opponent_twice. destruct (moves_right a m); [|discriminate]. apply negb_true_iff. Qed.
Lemma promoted_free c k l s : promoted k = Some l -> stuck c l s = false.
Proof. destruct k; intros [= <-]; reflexivity. Qed.
Lemma none_stuck_after a m : moves_right a m = true -> none_stuck a -> none_stuck (after a m).
Proof.
  unfold moves_right, none_stuck, after. intros R H s k c V. destruct m as [f t pr|p t]; cbn [a_board].
  - destruct (a_board a f) as [[j d]|] eqn:Bf; [|discriminate]. destruct (same_square_spec s t) as [->|N1].
    + intros [= <- <-]. destruct (same_color _ _); [|discriminate]. destruct (attacks _ _ _); [|discriminate]. destruct (owned_by _ _ _); [discriminate|]. cbn [negb] in R.
      destruct pr; [|now apply negb_true_iff]. unfold can_promote in R. destruct (promoted j) as [l|] eqn:Pj; [|discriminate]. eapply promoted_free; eauto.
    + destruct (same_square_spec s f); [discriminate|]. now apply H.
  - destruct (same_square_spec s t) as [->|N1]; [|now apply H]. intros [= <- <-]. destruct (same_color _ _); [|discriminate].
    destruct (can_be_in_hand _); [|discriminate]. destruct (0 <? _); [|discriminate]. destruct (a_board a t); [discriminate|]. destruct (stuck _ _ _); auto.
Qed.
Lemma pawn_attack b f t c : b f = Some (Pawn, c) -> attacks b f t = true -> file_of t = file_of f.
Proof.
  intros B. unfold attacks. rewrite B. unfold reach. cbn [steps slides flat_map app]. destruct (step c f ahead) as [q|] eqn:E; [|discriminate].
  cbn [app existsb]. rewrite orb_false_r. destruct (same_square_spec t q) as [->|]; [|discriminate]. intros _. now apply (step_file c f ahead).
Qed.
Lemma no_two_pawns_after a m : valid_move m -> moves_right a m = true -> no_two_pawns a -> no_two_pawns (after a m).
Proof.
  unfold no_two_pawns. intros V R H. destruct m as [f t pr|p t]; destruct V as [V1 V2].
  - assert (Q : forall s c, valid_square s -> a_board (after a (Normal f t pr)) s = Some (Pawn, c) ->
      (s <> f /\ a_board a s = Some (Pawn, c) /\ s <> t) \/ (s = t /\ a_board a f = Some (Pawn, c) /\ file_of t = file_of f)).
    { intros s c V. unfold after. cbn [a_board]. unfold moves_right in R. destruct (a_board a f) as [[j d]|] eqn:Bf; [|discriminate].
      destruct (same_color (a_side a) d) eqn:Sc; [|discriminate]. apply same_color_true in Sc. subst d.
      destruct (attacks _ _ _) eqn:At; [|discriminate]. destruct (owned_by _ _ _); [discriminate|]. cbn [negb] in R.
      destruct (same_square_spec s t) as [->|N1].
      - intros [= E <-]. right. split; auto. destruct pr.
        + unfold can_promote in R. destruct (promoted j) as [l|] eqn:Pj; [|discriminate]. subst l. destruct j; discriminate.
        + subst j. split; auto. eapply pawn_attack; eauto.
      - destruct (same_square_spec s f); [discriminate|]. auto. }
    intros s u c Vs Vu A B F. destruct (Q s c Vs A) as [(N1 & A1 & _)|(E1 & A1 & F1)], (Q u c Vu B) as [(N2 & B1 & _)|(E2 & B1 & F2)].
    + exact (H s u c Vs Vu A1 B1 F).
    + subst u. exfalso. apply N1. apply (H s f c); auto. congruence.
    + subst s. exfalso. apply N2. apply (H u f c); auto. congruence.
    + congruence.
  - assert (Q : forall s c, valid_square s -> a_board (after a (Drop p t)) s = Some (Pawn, c) ->
      a_board a s = Some (Pawn, c) /\ s <> t \/ (s = t /\ c = a_side a /\ pawn_on_file (a_board a) c (file_of t) = false)).
    { intros s c V. unfold after. cbn [a_board]. unfold moves_right in R. destruct (same_color (a_side a) _); [|discriminate]. destruct (can_be_in_hand _); [|discriminate].
      destruct (0 <? _); [|discriminate]. destruct (a_board a t); [discriminate|]. destruct (stuck _ _ _); [discriminate|]. cbn [negb] in R.
      destruct (same_square_spec s t) as [->|N1]; auto. intros [= E <-]. right. split; auto. split; auto. rewrite E, same_kind_refl in R. now apply negb_true_iff. }
    assert (NP : forall s c, valid_square s -> a_board a s = Some (Pawn, c) -> pawn_on_file (a_board a) c (file_of s) = true).
    { intros s c V E. unfold pawn_on_file. apply existsb_exists. exists s. split; [now apply In_squares|]. rewrite N.eqb_refl, E. apply same_color_refl. }
    intros s u c Vs Vu A B F. destruct (Q s c Vs A) as [[A1 N1]|(E1 & E2 & E3)], (Q u c Vu B) as [[B1 N2]|(F1 & F2 & F3)].
    + exact (H s u c Vs Vu A1 B1 F).
    + subst u. rewrite <- F, (NP s c) in F3 by auto. discriminate.
    + subst s. rewrite F, (NP u c) in E3 by auto. discriminate.
    + congruence.
Qed.
Definition in_order (a : apos) : Prop := left_safe a /\ none_stuck a /\ no_two_pawns a.
Lemma in_order_after a m : valid_move m -> legal a m = true -> in_order a -> in_order (after a m).
Proof.
  intros V L (A & B & C). pose proof (legal_right a m L) as R. split; [|split].
  - apply left_safe_after. unfold legal in L. now destruct (safe a m).
  - now apply none_stuck_after.
  - now apply no_two_pawns_after.
Qed.
Lemma in_order_aeq a b : aeq a b -> in_order a -> in_order b.
Proof.
  intros (A & _ & C & _) (X & Y & Z). split; [|split].
  - unfold left_safe in *. now rewrite <- A, <- (check_ext _ _ _ C).
  - intros s k c V. rewrite <- (C s V). now apply Y.
  - intros s t c V V'. rewrite <- (C s V), <- (C t V'). now apply Z.
Qed.
Definition in_orderb (a : apos) : bool :=
  negb (check (a_board a) (opponent (a_side a))) &&
  forallb (fun s => match a_board a s with Some (k, c) => negb (stuck c k s) | None => true end) squares &&
  forallb (fun s => forallb (fun t => match a_board a s, a_board a t with
     | Some (Pawn, c), Some (Pawn, d) => negb (same_color c d) || negb (file_of s =? file_of t) || same_square s t | _, _ => true end) squares) squares.
Lemma in_orderb_ok a : in_orderb a = true -> in_order a.
Proof.
  unfold in_orderb. intros H. apply andb_prop in H as [H H3]. apply andb_prop in H as [H1 H2]. rewrite forallb_forall in H2, H3. split; [|split].
  - now apply negb_true_iff.
  - intros s k c V E. apply In_squares in V. specialize (H2 s V). rewrite E in H2. now apply negb_true_iff.
  - intros s t c V V' E E' F. apply In_squares in V, V'. specialize (H3 s V). rewrite forallb_forall in H3. specialize (H3 t V').
    rewrite E, E', same_color_refl, F, N.eqb_refl in H3. cbn [negb orb] in H3. now destruct (same_square_spec s t).
Qed.
Local Transparent check.
Lemma in_order_opening : in_order a_opening.
Proof. apply in_orderb_ok. vm_compute. reflexivity. Qed.
Local Opaque check.

(** ** The library plays by the rules *)
(** C72: a move by which a piece goes where it may go is accepted, and the position shows what it did; only the king cannot be taken,
    and no hand may overflow. *)
Lemma c72_accepted_pf : forall P s a m, reachable P s -> sees P s a -> valid_move m -> left_safe a ->
  (forall k, In k hand_kinds -> a_hand a (a_side a) k < 255) -> moves_right a m = true ->
  exists s', make_move P m s = Ret (s', Some tt) /\ sees P s' (after a m).
Proof.
  intros P s a m R S V L Hh Rt. destruct (move_cases P s a m R S V) as (s' & o & E & R' & Q). pose proof (right_sense a m V L Rt) as MS.
  apply a_move_accepts in MS as (a' & Ea). destruct o as [[]|].
  - destruct Q as (a2 & Ea2 & S2). exists s'. split; auto. rewrite Ea in Ea2. injection Ea2 as <-. eapply aeq_sees; [|exact S2]. now apply after_move.
  - destruct Q as [_ Q]. congruence.
Qed.
Lemma played_hands P s a : played P s -> sees P s a -> forall c k, In k hand_kinds -> a_hand a c k < 255.
Proof.
  intros R S c k K. destruct (played_facts P s R) as (W & C & _). apply sees_iff in S; auto. apply (conserved_aeq _ _ S) in C.
  pose proof (conserved_le a c k C K). assert (full_set k <= 18) by (destruct k; simpl; lia). lia.
Qed.
Lemma played_next P s m s' o : played P s -> valid_move m -> make_move P m s = Ret (s', o) -> played P s'.
Proof.
  intros Pl V E. pose proof (TClient.played_try P s m Pl V) as Q. rewrite make_move_ok in E by (auto; eapply played_wf; eauto). unfold try_move in Q.
  destruct (do_move s m); injection E as <- _; exact Q.
Qed.
Lemma legal_run P ms : forall s a, played P s -> sees P s a -> in_order a -> Forall valid_move ms -> legal_game a ms = true ->
  exists s', run_ops P s (map OpMove ms) = Ret (s', repeat true (length ms)) /\ played P s' /\ sees P s' (after_all a ms) /\ in_order (after_all a ms).
Proof.
  induction ms as [|m ms IH]; intros s a Pl S O V L; [exists s; auto|]. inversion_clear V as [|? ? V1 V2]. cbn [legal_game] in L. destruct (legal a m) eqn:Lm; [|discriminate].
  destruct (c72_accepted_pf P s a m (played_reachable P s Pl) S V1 (proj1 O) (fun k => played_hands P s a Pl S (a_side a) k) (legal_right a m Lm)) as (s1 & E & S1).
  destruct (IH s1 (after a m) (played_next P s m s1 _ Pl V1 E) S1 (in_order_after a m V1 Lm O) V2 L) as (s2 & E2 & X). exists s2. split; [|exact X].
  cbn [map run_ops run_op]. rewrite E. cbn [bind is_some]. rewrite E2. reflexivity.
Qed.
Lemma opening_played P s0 : pp_startpos P = Ret s0 -> played P s0 /\ sees P s0 a_opening.
Proof.
  intros I. split; [exists s0, [], []; auto|]. rewrite startpos_ok in I. injection I as <-. apply sees_iff; [apply startpos_wf|apply abs_startpos].
Qed.
(** C72: every legal game can be played on the library from the starting position; every move is accepted, the position shown is the one
    the rules lead to, the player who has just moved is not in check, no piece is stuck, and no player has two pawns on a file. *)
Lemma c72_legal_game_pf : forall P s0 ms, pp_startpos P = Ret s0 -> Forall valid_move ms -> legal_game a_opening ms = true ->
  exists s, run_ops P s0 (map OpMove ms) = Ret (s, repeat true (length ms)) /\ sees P s (after_all a_opening ms) /\
    left_safe (after_all a_opening ms) /\ none_stuck (after_all a_opening ms) /\ no_two_pawns (after_all a_opening ms).
Proof.
  intros P s0 ms I V L. destruct (opening_played P s0 I) as [Pl S]. destruct (legal_run P ms s0 a_opening Pl S in_order_opening V L) as (s & E & _ & S' & O). exists s. auto.
Qed.
(** ** The implementor *)
Lemma nth_squares {A} (g : square -> A) d t : valid_square t -> nth (N.to_nat (sq_repr t - 1)) (map g squares) d = g t.
Proof.
  intros [V1 V2]. unfold squares. rewrite map_map. rewrite (nth_indep _ d (g (Square (N.of_nat 0)))) by (rewrite map_length, seq_length; lia).
  rewrite (map_nth (fun n => g (Square (N.of_nat n)))). rewrite seq_nth by lia. f_equal. destruct t as [n]. cbn [sq_repr] in *. f_equal. lia.
Qed.
Lemma look_ok P s : wf s -> exists a, look P s = Ret a /\ aeq a (abs s).
Proof.
  intros W. unfold look. rewrite (LClient.map_res_map (piece_at P s) (cell s)) by (intros x I; apply piece_at_ok; auto; now apply In_squares). cbn [bind].
  rewrite (LClient.map_res_map _ (fun c => map (fun k => if is_hand_piece k then Some (in_hand (hand_at s c) k) else None) hand_kinds)).
  2:{ intros c _. rewrite hand_of_a_player_ok by auto. cbn [bind]. apply LClient.map_res_map. intros k _. apply hand_count_ok, hand_at_valid; auto. }
  cbn [bind]. rewrite last_move_ok by auto. cbn [bind]. rewrite (LClient.map_res_map (king_position P s) (king_at s)) by (intros; now apply king_position_ok). cbn [bind].
  eexists. split; [reflexivity|]. unfold aeq, abs. cbn [a_side a_ply a_board a_hand a_last a_king]. repeat split.
  - intros sq V. now rewrite (nth_squares (cell s)).
  - intros c k K. cbn [In hand_kinds] in K. destruct c; repeat (destruct K as [<-|K]; [reflexivity|]); destruct K.
  - intros []; reflexivity.
Qed.
Lemma look_sees P s a : reachable P s -> sees P s a -> exists b, look P s = Ret b /\ aeq b a.
Proof.
  intros R S. pose proof (reachable_wf P s R) as W. apply sees_iff in S; auto. destruct (look_ok P s W) as (b & E & A). exists b. split; auto. eapply aeq_trans; eauto.
Qed.
Lemma existsb_legal_ext a b : aeq a b -> existsb (legal a) (candidates (a_side a)) = existsb (legal b) (candidates (a_side b)).
Proof. intros H. rewrite <- (proj1 H). apply existsb_ext. intros m I. apply legal_ext; auto. eapply candidates_valid; eauto. Qed.
Lemma status_ext a b : aeq a b -> status_of a = status_of b.
Proof.
  intros H. unfold status_of. rewrite (existsb_legal_ext a b H). destruct H as (A & _ & C & _). rewrite <- A, (check_ext _ _ _ C). reflexivity.
Qed.
Lemma allowed_ext a b m : aeq a b -> valid_move m -> allowed a m = allowed b m.
Proof. intros H V. unfold allowed. rewrite (legal_ext a b m H V). destruct H as (A & _ & C & _). rewrite <- A, (check_ext _ _ _ C). reflexivity. Qed.
Lemma allowed_iff a m : allowed a m = true <-> left_safe a /\ legal a m = true.
Proof. unfold allowed, left_safe. destruct (legal a m), (check _ _); cbn [negb]; intuition discriminate. Qed.
Lemma in_candidates a m : valid_move m -> moves_right a m = true -> In m (candidates (a_side a)).
Proof.
  intros V R. unfold candidates. apply in_app_iff. rewrite !in_flat_map. destruct m as [f t pr|p t]; destruct V as [V1 V2].
  - left. exists f. split; [now apply In_squares|]. apply in_flat_map. exists t. split; [now apply In_squares|]. destruct pr; cbn [In]; auto.
  - right. unfold moves_right in R. destruct (same_color (a_side a) (color_of p)) eqn:Sc; [|discriminate]. apply same_color_true in Sc.
    destruct (can_be_in_hand (kind_of p)) eqn:K; [|discriminate]. apply can_be_in_hand_iff in K. exists (kind_of p). split; auto.
    apply in_map_iff. exists t. split; [|now apply In_squares]. f_equal. rewrite Sc. now apply piece_of_parts.
Qed.
Fixpoint rising (l : list N) : bool := match l with x :: (y :: _) as r => if x <? y then rising r else false | _ => true end.
Definition move_key (m : move) : N :=
  match m with
  | Normal f t pr => sq_repr f * 1000 + sq_repr t * 2 + (if pr then 1 else 0)
  | Drop p t => 1000000 + kind_number (kind_of p) * 100 + sq_repr t
  end.
Lemma rising_lt l : forall x, rising (x :: l) = true -> forall y, In y l -> x < y.
Proof.
  induction l as [|z l IH]; intros x H y I; [destruct I|]. cbn [rising] in H. destruct (N.ltb_spec x z) as [L|]; [|discriminate].
  destruct I as [<-|I]; auto. specialize (IH z H y I). lia.
Qed.
Lemma rising_NoDup l : rising l = true -> NoDup l.
Proof.
  induction l as [|x l IH]; intros H; constructor.
  - intros I. pose proof (rising_lt l x H x I). lia.
  - apply IH. destruct l as [|y l]; auto. cbn [rising] in *. destruct (x <? y); auto; discriminate.
Qed.
Lemma candidates_NoDup c : NoDup (candidates c).
Proof. apply (NoDup_map_inv move_key), rising_NoDup. destruct c; vm_compute; reflexivity. Qed.
(** C72: the checker that reads the position by calls to the library and decides by the rules answers Ok exactly for the legal moves,
    lists exactly these, each once, and agrees with itself. *)
Lemma c72_checker_pf : forall P s a m, reachable P s -> sees P s a -> valid_move m -> let L := rules_checker P in
  (exists r, lc_is_legal_partial L s m = Ret r /\ (r = ROk <-> left_safe a /\ legal a m = true)) /\
  (exists b, lc_is_legal_partial_lite L s m = Ret b /\ (b = true <-> left_safe a /\ legal a m = true)) /\
  (exists l, lc_all_legal_moves_partial L s = Ret l /\ NoDup l /\ (In m l <-> left_safe a /\ legal a m = true)).
Proof.
  intros P s a m R S V L. destruct (look_sees P s a R S) as (b & E & A). unfold L, rules_checker. cbn [lc_is_legal_partial lc_is_legal_partial_lite lc_all_legal_moves_partial].
  rewrite E. cbn [bind]. rewrite (allowed_ext b a m A V). split; [|split].
  - eexists. split; [reflexivity|]. rewrite <- allowed_iff. destruct (allowed a m); intuition discriminate.
  - eexists. split; [reflexivity|]. apply allowed_iff.
  - eexists. split; [reflexivity|]. split; [apply NoDup_filter, candidates_NoDup|]. rewrite filter_In, (allowed_ext b a m A V), <- allowed_iff. split; [tauto|].
    intros Q. split; auto. rewrite (proj1 A). apply in_candidates; auto. apply allowed_iff in Q as [_ Q]. now apply legal_right.
Qed.
(** C72: its status says whether the game goes on: there is a legal move and the king that is not on turn is safe. *)
Lemma c72_status_pf : forall P s a, reachable P s -> sees P s a ->
  exists st, rules_status P s = Ret st /\
    (st = PSInvalid <-> ~ left_safe a) /\
    (st = PSInProgress <-> left_safe a /\ exists m, valid_move m /\ legal a m = true) /\
    (st = (match a_side a with Black => PSWhiteWins | White => PSBlackWins end) <-> left_safe a /\ forall m, valid_move m -> legal a m = false) /\
    st <> PSDraw.
Proof.
  intros P s a R S. destruct (look_sees P s a R S) as (b & E & A). unfold rules_status. rewrite E. cbn [bind]. rewrite (status_ext b a A). exists (status_of a). split; auto.
  assert (X : existsb (legal a) (candidates (a_side a)) = true <-> exists m, valid_move m /\ legal a m = true).
  { rewrite existsb_exists. split; intros (m & I & L); exists m; split; auto; [eapply candidates_valid; eauto|]. apply in_candidates; auto using legal_right. }
  assert (Y : existsb (legal a) (candidates (a_side a)) = false <-> forall m, valid_move m -> legal a m = false).
  { split.
    - intros Q m V. destruct (legal a m) eqn:L; auto. rewrite (proj2 X) in Q by eauto. discriminate.
    - intros Q. destruct (existsb _ _) eqn:Z; auto. destruct (proj1 X eq_refl) as (m & V & L). rewrite Q in L by auto. discriminate. }
  unfold status_of, left_safe. destruct (check _ _) eqn:C; [destruct (a_side a); repeat split; try discriminate; try tauto; intros [? _]; discriminate|].
  rewrite <- X, <- Y. destruct (existsb _ _); destruct (a_side a); repeat split; try discriminate; try tauto; try congruence; intros [_ ?]; discriminate.
Qed.
(** C72: it keeps the promise of the trait: a move it calls legal succeeds. *)
Lemma c72_honest_pf : forall P, honest P (rules_checker P).
Proof.
  intros P p m R V. pose proof (sees_abs P (inner p) (reachable_wf P _ R)) as S. unfold lc_is_legal.
  destruct (c72_status_pf P (inner p) _ R S) as (st & E & _). destruct (c72_checker_pf P (inner p) _ m R S V) as ((r & Er & Ir) & _).
  change (lc_status (rules_checker P) p) with (rules_status P (inner p)). rewrite E. cbn [bind].
  destruct (negb _); [eexists; split; [reflexivity|discriminate]|]. exists r. split; [exact Er|]. intros Q. apply Ir in Q as [Ls Lg].
  destruct (c22_accepts_pf P (inner p) _ m R S V) as (s' & o & Em & I). assert (o = Some tt) by (apply I, right_sense; auto using legal_right). subst o.
  eexists. unfold pos_make_move. change (pos_inner p) with (inner p). rewrite Em. cbn [bind]. reflexivity.
Qed.
Lemma legal_in_progress a m : left_safe a -> valid_move m -> legal a m = true -> status_of a = PSInProgress.
Proof.
  intros L V Q. unfold status_of, left_safe in *. rewrite L. assert (X : existsb (legal a) (candidates (a_side a)) = true); [|now rewrite X].
  apply existsb_exists. exists m. split; auto. apply in_candidates; auto using legal_right.
Qed.
Lemma checker_run P ms : forall p a, played P (inner p) -> sees P (inner p) a -> in_order a -> Forall valid_move ms ->
  exists p' rs, lc_play P (rules_checker P) p ms = Ret (p', rs) /\ forallb is_ok rs = legal_game a ms /\
    (legal_game a ms = true -> sees P (inner p') (after_all a ms)).
Proof.
  induction ms as [|m ms IH]; intros p a Pl S O V; [exists p, []; auto|]. inversion_clear V as [|? ? V1 V2]. pose proof (played_reachable P _ Pl) as R.
  destruct (c72_honest_pf P p m R V1) as (r & E & Hr). destruct (c45_make_move_pf P (rules_checker P) p m r R V1 E Hr) as (p1 & M & D). cbn [lc_play legal_game]. rewrite M. cbn [bind].
  destruct (c72_checker_pf P (inner p) a m R S V1) as ((r' & Er & Ir) & _). destruct (legal a m) eqn:Lm.
  - assert (r = ROk).
    { unfold lc_is_legal in E. change (lc_status (rules_checker P) p) with (rules_status P (inner p)) in E. destruct (look_sees P (inner p) a R S) as (b & Eb & A).
      unfold rules_status in E. rewrite Eb in E. cbn [bind] in E. rewrite (status_ext b a A), (legal_in_progress a m (proj1 O) V1 Lm) in E. cbn [ps_eqb ps_as_u8] in E.
      change (negb (4 =? 4)) with false in E. cbv iota in E. rewrite Er in E. injection E as ->. apply Ir. split; auto. apply O. }
    subst r. destruct D as (_ & _ & Em & _).
    destruct (c72_accepted_pf P (inner p) a m R S V1 (proj1 O) (fun k => played_hands P _ a Pl S (a_side a) k) (legal_right a m Lm)) as (s1 & E1 & S1).
    rewrite Em in E1. apply ret_inj in E1. injection E1 as <-.
    destruct (IH p1 (after a m) (played_next P _ m _ _ Pl V1 Em) S1 (in_order_after a m V1 Lm O) V2) as (p2 & rs & X & Y & Z). exists p2, (ROk :: rs). rewrite X. auto.
  - assert (exists e, r = RErr e) as [e ->].
    { destruct r as [|e]; eauto. exfalso. unfold lc_is_legal in E. destruct (lc_status _ p) as [st| |]; cbn [bind] in E; try discriminate.
      destruct (negb _); [discriminate|]. rewrite Er in E. injection E as ->. destruct Ir as [Ir _]. destruct (Ir eq_refl). discriminate. }
    subst p1. destruct (IH p a Pl S O V2) as (p2 & rs & X & _). exists p2, (RErr e :: rs). rewrite X. cbn [bind forallb is_ok andb]. split; [reflexivity|]. split; [reflexivity|discriminate].
Qed.
(** C72: played through the checker from the starting position, a list of moves meets with no error if and only if it is a legal game. *)
Lemma c72_checked_game_pf : forall P p ms, pos_startpos P = Ret p -> Forall valid_move ms ->
  exists p' rs, lc_play P (rules_checker P) p ms = Ret (p', rs) /\ length rs = length ms /\
    (Forall (fun r => r = ROk) rs <-> legal_game a_opening ms = true) /\
    (legal_game a_opening ms = true -> sees P (inner p') (after_all a_opening ms)).
Proof.
  intros P p ms I V. assert (S : exists s, pp_startpos P = Ret s /\ inner p = s).
  { unfold pos_startpos in I. destruct (pp_startpos P) as [s| |]; cbn [bind] in I; try discriminate. apply ret_inj in I. subst p. exists s. auto. }
  destruct S as (s & Es & Ei). destruct (opening_played P s Es) as [Pl S]. rewrite <- Ei in Pl, S.
  destruct (checker_run P ms p a_opening Pl S in_order_opening V) as (p' & rs & X & Y & Z). exists p', rs. split; auto. split; [|split; auto].
  - clear -X. revert p p' rs X. induction ms as [|m ms IH]; intros p p' rs X; cbn [lc_play] in X; [apply ret_inj in X; injection X as _ <-; reflexivity|].
    destruct (lc_make_move _ _ _ _) as [[p1 r]| |]; cbn [bind] in X; try discriminate. destruct (lc_play P (rules_checker P) p1 ms) as [[p2 rs']| |] eqn:Q; cbn [bind] in X; try discriminate.
    apply ret_inj in X. injection X as _ <-. cbn [length]. f_equal. eapply IH; eauto.
  - rewrite <- Y, forallb_forall, Forall_forall. split; intros H r Ir; specialize (H r Ir); [now rewrite H|]. destruct r; auto; discriminate.
Qed.
Lemma collect_squares_ok P l : (forall s, In s l -> valid_square s) -> exists b, collect_squares P l = Ret b /\ bb_is P b (fun s => existsb (same_square s) l).
Proof.
  induction l as [|s l IH]; intros H; cbn [collect_squares existsb].
  - exists bb_empty. split; auto. split; [apply bb_empty_valid|]. intros. rewrite bb_contains_ok, member_empty; auto.
  - destruct IH as (b & -> & Vb & Hb); [intros; apply H; now right|]. cbn [bind]. assert (Vs : valid_square s) by (apply H; now left). unfold bb_or_square. rewrite bb_single_ok by auto. cbn [bind].
    eexists. split; [reflexivity|]. split; [apply or_valid; auto using single_valid|]. intros t Vt. specialize (Hb t Vt). rewrite bb_contains_ok in * by auto. rewrite member_or, member_single by auto.
    apply ret_inj in Hb. rewrite Hb. f_equal. rewrite orb_comm. f_equal. unfold sq_eqb, same_square. apply N.eqb_sym.
Qed.
Lemma collect_filter P f : exists b, collect_squares P (filter f squares) = Ret b /\ bb_is P b f.
Proof.
  destruct (collect_squares_ok P (filter f squares)) as (b & E & V & H); [intros s I; apply filter_In in I as [I _]; now apply In_squares|]. exists b. split; auto. split; auto. intros s Vs.
  rewrite H by auto. f_equal. destruct (f s) eqn:F.
  - apply existsb_exists. exists s. split; [apply filter_In; split; auto; now apply In_squares|]. unfold same_square. apply N.eqb_refl.
  - apply not_true_iff_false. intros Q. apply existsb_exists in Q as (t & I & Et). apply filter_In in I as [_ I]. destruct (same_square_spec s t); [subst; congruence|discriminate].
Qed.
Lemma bb_is_ext P b f g : (forall s, valid_square s -> f s = g s) -> bb_is P b f -> bb_is P b g.
Proof. intros H [V B]. split; auto. intros s Vs. now rewrite B, H. Qed.
(** C72: the methods that answer with bitboards are right as well. *)
Lemma c72_candidates_pf : forall P s a from to p, reachable P s -> sees P s a -> valid_square from -> valid_square to -> valid_piece p ->
  let ok m := left_safe a /\ legal a m = true in
  (exists b, rules_from P s from = Ret b /\ valid_bb b /\
     (bb_contains P b to = Ret true <-> ok (Normal from to false) \/ ok (Normal from to true))) /\
  (exists b, rules_to P s to p = Ret b /\ valid_bb b /\
     (bb_contains P b from = Ret true <-> piece_at P s from = Ret (Some p) /\ (ok (Normal from to false) \/ ok (Normal from to true)))) /\
  (exists b, rules_drop P s p = Ret b /\ valid_bb b /\ (bb_contains P b to = Ret true <-> ok (Drop p to))).
Proof.
  intros P s a from to p R S Vf Vt Vp ok. destruct (look_sees P s a R S) as (b & E & A). unfold rules_from, rules_to, rules_drop. rewrite E. cbn [bind].
  assert (T : forall x, Ret x = Ret true <-> x = true) by (intros []; split; congruence). split; [|split].
  - destruct (collect_filter P (fun to => allowed b (Normal from to false) || allowed b (Normal from to true))) as (bb & Eb & V & H). exists bb. split; auto. split; auto.
    rewrite H, T, orb_true_iff by auto. rewrite !(allowed_ext b a) by (auto; split; auto). now rewrite !allowed_iff.
  - match goal with |- context [filter ?f squares] => destruct (collect_filter P f) as (bb & Eb & V & H) end. exists bb. split; auto. split; auto. rewrite H, T by auto.
    destruct S as (_ & _ & S & _). rewrite S by auto. rewrite (proj1 (proj2 (proj2 A)) from Vf). destruct (a_board a from) as [x|]; cbn [option_map].
    + unfold piece_eqb. destruct (N.eqb_spec (piece_repr (the_piece x)) (piece_repr p)) as [Q|Q].
      * assert (H0 : the_piece x = p) by (destruct (the_piece x), p; cbn in Q; congruence). rewrite orb_true_iff, !(allowed_ext b a) by (auto; split; auto). rewrite !allowed_iff. rewrite H0. unfold ok. split; [intros Z; split; [reflexivity|exact Z]|intros [_ Z]; exact Z].
      * split; [discriminate|]. intros [F _]. exfalso. apply Q. congruence.
    + intuition discriminate.
  - destruct (collect_filter P (fun to => allowed b (Drop p to))) as (bb & Eb & V & H). exists bb. split; auto. split; auto. rewrite H, T by auto. rewrite (allowed_ext b a) by (auto; split; auto). apply allowed_iff.
Qed.
Local Transparent check safe mate.
Lemma unchecked P os m e : Forall valid_op os -> valid_move m -> let s := fst (do_ops pp_empty os) in
  (ps_eqb (status_of (abs s)) PSInProgress && (imk_as_u8 (fault (abs s) m) =? imk_as_u8 e) && negb (legal (abs s) m) && is_some (do_move s m)) = true ->
  exists s a m s', reachable P s /\ sees P s a /\ valid_move m /\ status_of a = PSInProgress /\ legal a m = false /\ fault a m = e /\
    make_move P m s = Ret (s', Some tt).
Proof.
  intros V Vm s H. apply andb_prop in H as [H H4]. apply andb_prop in H as [H H3]. apply andb_prop in H as [H1 H2].
  assert (R : reachable P s). { exists pp_empty, os, (snd (do_ops pp_empty os)). split; [now left|]. split; auto. rewrite run_ops_ok by (auto; apply pp_empty_wf). f_equal. apply surjective_pairing. }
  pose proof (reachable_wf P s R) as W. destruct (do_move s m) as [s'|] eqn:D; [|discriminate]. exists s, (abs s), m, s'.
  split; auto. split; [now apply sees_abs|]. split; auto. split; [destruct (status_of (abs s)); auto; discriminate|]. split; [now apply negb_true_iff|].
  split; [apply N.eqb_eq in H2; destruct (fault (abs s) m), e; auto; discriminate|]. rewrite make_move_ok by auto. now rewrite D.
Qed.
Lemma holds_valid : valid_op (holds Pawn).
Proof. split; [reflexivity|]. split; [|reflexivity]. repeat constructor. Qed.
Lemma at_op_valid f r k c : 1 <= f <= 9 -> 1 <= r <= 9 -> valid_op (at_ f r k c).
Proof. intros. split; [now apply at_valid|apply piece_of_valid]. Qed.
(** C72: [make_move] does not check the rules: for each kind of illegal move there is one in a game in progress that it accepts. *)
Lemma c72_not_checked_pf : forall P e, e <> GameFinished ->
  exists s a m s', reachable P s /\ sees P s a /\ valid_move m /\ status_of a = PSInProgress /\ legal a m = false /\ fault a m = e /\
    make_move P m s = Ret (s', Some tt).
Proof.
  intros P e N. destruct e; [| | | | |congruence|].
  - apply (unchecked P pawns (rd Pawn 7 4)); [repeat (apply Forall_cons; [first [exact holds_valid|apply at_op_valid; split; discriminate]|]); apply Forall_nil|split; [apply piece_of_valid|split; discriminate]|vm_compute; reflexivity].
  - apply (unchecked P attacked (rm 9 9 9 8 false)); [repeat (apply Forall_cons; [first [exact holds_valid|apply at_op_valid; split; discriminate]|]); apply Forall_nil|repeat split; discriminate|vm_compute; reflexivity].
  - apply (unchecked P corner (rd Pawn 1 2)); [repeat (apply Forall_cons; [first [exact holds_valid|apply at_op_valid; split; discriminate]|]); apply Forall_nil|split; [apply piece_of_valid|split; discriminate]|vm_compute; reflexivity].
  - apply (unchecked P pawns (rd Pawn 8 1)); [repeat (apply Forall_cons; [first [exact holds_valid|apply at_op_valid; split; discriminate]|]); apply Forall_nil|split; [apply piece_of_valid|split; discriminate]|vm_compute; reflexivity].
  - apply (unchecked P pawns (rm 5 2 5 1 false)); [repeat (apply Forall_cons; [first [exact holds_valid|apply at_op_valid; split; discriminate]|]); apply Forall_nil|repeat split; discriminate|vm_compute; reflexivity].
  - apply (unchecked P pawns (rm 7 7 3 3 false)); [repeat (apply Forall_cons; [first [exact holds_valid|apply at_op_valid; split; discriminate]|]); apply Forall_nil|repeat split; discriminate|vm_compute; reflexivity].
Qed.
