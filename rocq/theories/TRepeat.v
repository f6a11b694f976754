(** Proofs of the property theorems on repetition (restated in Prop_Repeat.v). *)
From Verif Require Export SpecRepeat.
From Verif Require Import LSampleR SpecOrd SpecSfen MOrdHash.
From Verif Require Import LBase LSquare LPiece LBits LBitboard LHand LMove LPosition LRefine LAbstract LExt LEdit LOrd TPosition TSfen TLegal TGame TOrd TRules.
(*PROPHEAD
Property theorems C74: repetition and perpetual check
From Verif Require Import SpecOrd SpecSfen MOrdHash LPiece Sample LSample LSampleR LSampleS LRefine LSampleX.
*)

Local Opaque check.
(** ** Settings *)
Lemma same_content_iff x y : same_content x y = true <-> x = y.
Proof.
  destruct x as [[k c]|], y as [[l d]|]; cbn [same_content]; try (split; intros; discriminate || reflexivity). rewrite andb_true_iff.
  destruct (same_kind_spec k l) as [->|N]; [|split; [intros [? _]; discriminate|intros [= ? _]; contradiction]].
  destruct c, d; cbn [same_color]; split; try (intros [_ ?]; discriminate); try (intros [=]); auto.
Qed.
Lemma same_setting_iff a b : same_setting a b = true <->
  a_side a = a_side b /\ (forall s, valid_square s -> a_board a s = a_board b s) /\ (forall c k, In k hand_kinds -> a_hand a c k = a_hand b c k).
Proof.
  unfold same_setting. split.
  - intros H. destruct (same_color _ _) eqn:E1; [|discriminate]. destruct (forallb _ squares) eqn:E2; [|discriminate].
    rewrite forallb_forall in E2, H. split; [|split].
    + destruct (a_side a), (a_side b); auto; discriminate.
    + intros s V. apply same_content_iff, E2, In_squares, V.
    + intros c k K. assert (I : In c [Black; White]) by (destruct c; cbn [In]; auto). specialize (H c I). rewrite forallb_forall in H. apply N.eqb_eq, H, K.
  - intros (A & B & C). rewrite A, same_color_refl. assert (forallb (fun s => same_content (a_board a s) (a_board b s)) squares = true) as ->.
    { apply forallb_forall. intros s I. apply same_content_iff, B, In_squares, I. }
    apply forallb_forall. intros c _. apply forallb_forall. intros k K. apply N.eqb_eq, C, K.
Qed.
Lemma same_setting_ext a a' b b' : aeq a a' -> aeq b b' -> same_setting a b = same_setting a' b'.
Proof.
  intros (A & _ & B & C & _) (A' & _ & B' & C' & _). apply eq_true_iff_eq. rewrite !same_setting_iff. rewrite A, A'.
  split; intros (X & Y & Z); (split; [exact X|split]).
  - intros s V. rewrite <- B, <- B' by auto. auto.
  - intros c k K. rewrite <- C, <- C' by auto. auto.
  - intros s V. rewrite B, B' by auto. auto.
  - intros c k K. rewrite C, C' by auto. auto.
Qed.
Lemma same_setting_refl a : same_setting a a = true.
Proof. apply same_setting_iff. auto. Qed.

(** ** The rule looks at what is shown only *)
Lemma since_ext l : forall l' a a' n, aeq a a' -> Forall2 aeq l l' ->
  match since a n l, since a' n l' with Some x, Some y => Forall2 aeq x y | None, None => True | _, _ => False end.
Proof.
  induction l as [|b l IH]; intros l' a a' n A F; inversion F; subst; destruct n; cbn [since]; auto.
  rewrite (same_setting_ext a a' b y) by auto. specialize (IH l'0 a a' (if same_setting a' y then n else S n) A H3).
  destruct (since a _ l), (since a' _ l'0); cbn [option_map]; auto.
Qed.
Lemma always_ext c l l' : Forall2 aeq l l' -> always_checked_by c l = always_checked_by c l'.
Proof.
  unfold always_checked_by. induction 1 as [|a b l l' A _ IH]; cbn [forallb]; auto. rewrite IH. f_equal. destruct A as (A & _ & C & _). rewrite A.
  destruct (same_color _ _); auto. now apply check_ext.
Qed.
Lemma verdict_ext a a' l l' : aeq a a' -> Forall2 aeq l l' -> verdict a l = verdict a' l'.
Proof.
  intros A F. unfold verdict. rewrite (status_ext a a' A). destruct (status_of a'); auto. pose proof (since_ext l l' a a' 3 A F) as S.
  destruct (since a 3 l), (since a' 3 l'); try contradiction; auto. rewrite !(always_ext _ (a :: l0) (a' :: l1)) by (constructor; auto). reflexivity.
Qed.
Lemma progress a past : ps_eqb (verdict a past) PSInProgress = true -> verdict a past = PSInProgress.
Proof. destruct (verdict a past); vm_compute; auto; discriminate. Qed.
Lemma progress_status a past : verdict a past = PSInProgress -> status_of a = PSInProgress /\ since a 3 past = None.
Proof.
  unfold verdict. destruct (status_of a); try discriminate. destruct (since a 3 past); auto. destruct (always_checked_by Black _), (always_checked_by White _); discriminate.
Qed.
Lemma progress_safe a past : verdict a past = PSInProgress -> left_safe a.
Proof. intros H. apply progress_status in H as [H _]. unfold status_of, left_safe in *. destruct (check _ _); auto; discriminate. Qed.

(** ** Hands *)
Definition few (a : apos) : Prop := forall k, In k hand_kinds -> (total a k <= 254)%nat.
Lemma few_iff a : few_pieces a <-> few a.
Proof.
  split; intros H k K; specialize (H k K); revert H; unfold total; rewrite on_board_cnt; lia.
Qed.
Lemma few_hands a : few a -> forall c k, In k hand_kinds -> a_hand a c k < 255.
Proof. intros F c k K. specialize (F k K). unfold total in F. destruct c; lia. Qed.
Lemma few_aeq a b : aeq a b -> few a -> few b.
Proof. intros (A & B & C & D & _) F k K. specialize (F k K). unfold total in *. rewrite <- !D by auto. now rewrite <- (cnt_ext _ _ _ C). Qed.
Lemma few_move a m a' : valid_move m -> few a -> a_move a m = Some a' -> few a'.
Proof.
  intros V C1 E k Hk. assert (MS : makes_sense a m) by (apply a_move_accepts; eauto).
  pose proof (a_move_effect a m a' E) as (_ & _ & _ & EF).
  pose proof (cnt_move a m a' (fun x => same_kind (base_kind (fst x)) k) V E) as CM.
  assert (X : forall k0 l (c : color), base_kind k0 = base_kind l -> same_kind (base_kind (fst (k0, c))) k = same_kind (base_kind (fst (l, c))) k)
    by (intros; simpl; congruence). specialize (CM X). clear X.
  specialize (C1 k Hk). unfold total in *. destruct m as [f t pr|p t].
  - destruct EF as (_ & k0 & k' & _ & _ & _ & _ & _ & H & _). rewrite !H. clear H.
    destruct (a_board a t) as [[e d]|] eqn:T; cbn [hit b2n fst] in CM; [|lia].
    assert (SK : same_kind k (base_kind e) = same_kind (base_kind e) k) by apply N.eqb_sym. rewrite SK.
    destruct (same_kind (base_kind e) k); rewrite ?andb_false_r; [|cbn [b2n] in CM; lia]. rewrite !andb_true_r. cbn [b2n] in CM.
    destruct (a_side a); cbn [same_color]; rewrite N.mod_small; lia.
  - destruct EF as (_ & _ & H & _). rewrite !H. clear H. destruct MS as (Cp & Hp & Z & _).
    assert (CM' : (cnt (fun x => same_kind (base_kind (fst x)) k) (a_board a') =
      cnt (fun x => same_kind (base_kind (fst x)) k) (a_board a) + b2n (same_kind (kind_of p) k))%nat).
    { rewrite CM. unfold parts_of. cbn [fst]. now rewrite (base_of_hand (kind_of p)). }
    clear CM. destruct (same_kind_spec (kind_of p) k) as [EK|NK]; cbn [b2n] in CM'.
    + rewrite EK in *. rewrite same_kind_refl. rewrite !andb_true_r. destruct (a_side a); cbn [same_color]; lia.
    + assert (same_kind k (kind_of p) = false) as -> by (destruct (same_kind_spec k (kind_of p)); congruence).
      rewrite !andb_false_r. lia.
Qed.
Lemma few_after a m : valid_move m -> few a -> left_safe a -> legal a m = true -> few (after a m).
Proof.
  intros V F L G. pose proof (right_sense a m V L (legal_right a m G)) as MS. apply a_move_accepts in MS as (a' & E).
  apply (few_aeq a'); [|now apply (few_move a m)]. apply after_move; auto. intros k. now apply few_hands.
Qed.
Lemma few_conserved a : conserved a -> few a.
Proof. intros [C _] k K. rewrite (C k K). assert (full_set k <= 18) by (destruct k; simpl; lia). lia. Qed.

(** ** The implementor *)
Definition judged (a : apos) (past : list apos) (ms : list move) : position_status :=
  if fair_game a past ms then verdict (after_all a ms) (trail a past ms) else PSInvalid.
Lemma replay_ok P ms : forall s a past past', reachable P s -> sees P s a -> few a -> Forall valid_move ms -> Forall2 aeq past' past ->
  replay P s past' ms = Ret (judged a past ms).
Proof.
  induction ms as [|m ms IH]; intros s a past past' R S F V Q; cbn [replay]; destruct (look_sees P s a R S) as (b & -> & A); cbn [bind].
  - unfold judged. cbn [fair_game after_all fold_left trail]. now rewrite (verdict_ext b a past' past).
  - inversion_clear V as [|? ? V1 V2]. rewrite (verdict_ext b a past' past), (legal_ext b a m) by auto. unfold judged. cbn [fair_game trail].
    destruct (ps_eqb _ _) eqn:G; [|reflexivity]. destruct (legal a m) eqn:Lm; [|reflexivity]. apply progress, progress_safe in G.
    destruct (c72_accepted_pf P s a m R S V1 G (fun k => few_hands a F (a_side a) k) (legal_right a m Lm)) as (s' & E & S').
    rewrite E. cbn [bind]. rewrite (IH s' (after a m) (a :: past) (b :: past')); auto.
    + destruct (move_cases P s a m R S V1) as (s2 & o & E2 & R2 & _). rewrite E in E2. apply ret_inj in E2. injection E2 as <- _. exact R2.
    + now apply few_after.
Qed.
Lemma fair_app ms : forall a past l, fair_game a past (ms ++ l) = fair_game a past ms and fair_game (after_all a ms) (trail a past ms) l.
Proof.
  induction ms as [|m ms IH]; intros a past l; cbn [app fair_game trail]; [reflexivity|]. destruct (ps_eqb _ _); [|reflexivity]. destruct (legal a m); [|reflexivity].
  apply IH.
Qed.
Lemma fair_few ms : forall a past, few a -> Forall valid_move ms -> fair_game a past ms = true -> few (after_all a ms).
Proof.
  induction ms as [|m ms IH]; intros a past F V G; [exact F|]. inversion_clear V as [|? ? V1 V2]. cbn [fair_game] in G. destruct (ps_eqb _ _) eqn:Q; [|discriminate].
  destruct (legal a m) eqn:Lm; [|discriminate]. apply progress, progress_safe in Q. apply (IH (after a m) (a :: past)); auto. now apply few_after.
Qed.
(** C74: the record that the library keeps suffices for the rule. However a [Position] was made and whatever was played on it by
    [make_move], playing the record again from the initial position tells how the game stands. *)
Lemma c74_status_pf : forall P p0 s0 a0 xs, created P p0 s0 -> sees P s0 a0 -> few_pieces a0 -> Forall valid_call xs ->
  exists p bs, pos_run P p0 xs = Ret (p, bs) /\ moves p = accepted_moves (map call_move xs) bs /\
    lc_status (full_checker P) p = Ret (standing a0 (moves p)).
Proof.
  intros P p0 s0 a0 xs C S F V. destruct (c31_replay_pf P p0 s0 xs C V) as (p & bs & E & I & M & _). exists p, bs. split; auto. split; auto.
  cbn [full_checker lc_status]. unfold full_status. rewrite I. apply created_facts in C as [R _]. change (standing a0 (moves p)) with (judged a0 [] (moves p)).
  apply replay_ok; auto; [now apply few_iff|]. rewrite M. assert (Vm : Forall valid_move (map call_move xs)).
  { apply Forall_map. eapply Forall_impl; [|exact V]. intros [m|c]; simpl; auto. intros Vc. now apply valid_compact_unpack. }
  clear -Vm. revert bs. induction Vm as [|m ms Hm _ IH]; intros bs; [constructor|].
  destruct bs as [|[] bs]; [constructor|constructor; [exact Hm|apply IH]|apply IH].
Qed.

(** The [Position] holds the record of a fair game *)
Definition fair_record (P : profile) (s0 : partial_position) (a0 : apos) (p : position) : Prop :=
  initial_position p = s0 /\ Forall valid_move (moves p) /\ fair_game a0 [] (moves p) = true /\
  reachable P (inner p) /\ sees P (inner p) (after_all a0 (moves p)).
Lemma record_status P s0 a0 p : reachable P s0 -> sees P s0 a0 -> few a0 -> fair_record P s0 a0 p ->
  full_status P p = Ret (verdict (after_all a0 (moves p)) (trail a0 [] (moves p))).
Proof.
  intros R S F (I & V & G & _). unfold full_status. rewrite I, (replay_ok P (moves p) s0 a0 [] []) by auto. unfold judged. now rewrite G.
Qed.
Lemma record_step P s0 a0 p m : reachable P s0 -> sees P s0 a0 -> few a0 -> fair_record P s0 a0 p -> valid_move m ->
  exists p' r, lc_make_move P (full_checker P) p m = Ret (p', r) /\ fair_record P s0 a0 p' /\
    is_ok r = fair_game a0 [] (moves p ++ [m]) /\ moves p' = (if is_ok r then moves p ++ [m] else moves p).
Proof.
  intros R S F Q V. pose proof (record_status P s0 a0 p R S F Q) as St. destruct Q as (I & Vm & G & Rp & Sp).
  set (b := after_all a0 (moves p)) in *. set (past := trail a0 [] (moves p)) in *.
  assert (Fg : fair_game a0 [] (moves p ++ [m]) = (ps_eqb (verdict b past) PSInProgress and legal b m)).
  { rewrite fair_app, G. fold b past. cbn [fair_game]. destruct (ps_eqb _ _); [|reflexivity]. now destruct (legal b m). }
  assert (Er : exists r, lc_is_legal (full_checker P) p m = Ret r /\ is_ok r = (ps_eqb (verdict b past) PSInProgress and legal b m)).
  { unfold lc_is_legal. change (lc_status (full_checker P) p) with (full_status P p). rewrite St. cbn [bind]. destruct (ps_eqb _ _) eqn:Pr; cbn [negb].
    - destruct (c72_checker_pf P (inner p) b m Rp Sp V) as ((r & E & Ir) & _). exists r. split; [exact E|]. apply progress, progress_safe in Pr.
      apply eq_true_iff_eq. assert (is_ok r = true <-> r = ROk) as -> by (destruct r; cbn; intuition discriminate). tauto.
    - eexists. split; [reflexivity|reflexivity]. }
  destruct Er as (r & E & Ok). assert (Hr : r = ROk -> exists q, pos_make_move P p m = Ret (q, Some tt)).
  { intros ->. cbn [is_ok] in Ok. symmetry in Ok. destruct (ps_eqb _ _) eqn:Pr; [|discriminate]. apply progress, progress_safe in Pr.
    destruct (c72_accepted_pf P (inner p) b m Rp Sp V Pr (fun k => few_hands b (fair_few _ _ _ F Vm G) (a_side b) k) (legal_right b m Ok)) as (s' & E' & _).
    eexists. unfold pos_make_move. change (pos_inner p) with (inner p). rewrite E'. cbn [bind]. reflexivity. }
  destruct (c45_make_move_pf P (full_checker P) p m r Rp V E Hr) as (p' & M & D). exists p', r. split; auto. rewrite Fg.
  destruct r as [|e]; cbn [is_ok] in *; [|subst p'; split; [split; auto|auto]].
  destruct D as (I' & M' & E' & _). split; [|auto]. symmetry in Ok. destruct (ps_eqb _ _) eqn:Pr; [|discriminate]. pose proof (progress_safe _ _ (progress _ _ Pr)) as Ls.
  destruct (c72_accepted_pf P (inner p) b m Rp Sp V Ls (fun k => few_hands b (fair_few _ _ _ F Vm G) (a_side b) k) (legal_right b m Ok)) as (s' & E2 & S2).
  rewrite E' in E2. apply ret_inj in E2. injection E2 as <-.
  split; [congruence|]. rewrite M'. split; [apply Forall_app; auto|]. split; [rewrite Fg; exact Ok|]. split.
  - destruct (move_cases P (inner p) b m Rp Sp V) as (s2 & o & E2 & R2 & _). rewrite E' in E2. apply ret_inj in E2. injection E2 as <- _. exact R2.
  - unfold after_all. rewrite fold_left_app. exact S2.
Qed.
Lemma fair_run P s0 a0 ms : reachable P s0 -> sees P s0 a0 -> few a0 -> Forall valid_move ms -> forall p, fair_record P s0 a0 p ->
  exists p' rs, lc_play P (full_checker P) p ms = Ret (p', rs) /\ length rs = length ms /\ fair_record P s0 a0 p' /\
    forallb is_ok rs = fair_game a0 [] (moves p ++ ms) /\ moves p' = moves p ++ accepted_moves ms (map is_ok rs).
Proof.
  intros R S F V. induction V as [|m ms Vm V IH]; intros p Q; cbn [lc_play].
  - exists p, []. split; [reflexivity|]. split; [reflexivity|]. split; [exact Q|]. rewrite !app_nil_r. split; auto. destruct Q as (_ & _ & G & _). now rewrite G.
  - destruct (record_step P s0 a0 p m R S F Q Vm) as (p1 & r & E & Q1 & Ok & M1). rewrite E. cbn [bind].
    destruct (IH p1 Q1) as (p2 & rs & E2 & L2 & Q2 & Ok2 & M2). rewrite E2. cbn [bind]. exists p2, (r :: rs). split; [reflexivity|]. split; [cbn [length]; congruence|]. split; auto.
    cbn [forallb map accepted_moves]. rewrite Ok2, M2, M1. replace (moves p ++ m :: ms) with ((moves p ++ [m]) ++ ms) by (rewrite <- app_assoc; reflexivity).
    destruct (is_ok r) eqn:Or; cbn [andb].
    + split; auto. now rewrite <- app_assoc.
    + split; [|reflexivity]. rewrite fair_app. now rewrite <- Ok.
Qed.
(** C74: played through the checker from any position, a list of moves meets with no error if and only if each is legal and made while the
    game goes on. Moves that meet with an error are not played; the record is always that of a fair game, and the status says how it
    stands. *)
Lemma c74_checked_game_pf : forall P p0 s0 a0 ms, created P p0 s0 -> sees P s0 a0 -> few_pieces a0 -> Forall valid_move ms ->
  exists p rs, lc_play P (full_checker P) p0 ms = Ret (p, rs) /\ length rs = length ms /\
    (Forall (fun r => r = ROk) rs <-> fair_game a0 [] ms = true) /\
    moves p = accepted_moves ms (map is_ok rs) /\ fair_game a0 [] (moves p) = true /\
    sees P (inner p) (after_all a0 (moves p)) /\
    lc_status (full_checker P) p = Ret (verdict (after_all a0 (moves p)) (trail a0 [] (moves p))).
Proof.
  intros P p0 s0 a0 ms C S F V. apply created_facts in C as [R ->]. apply few_iff in F.
  destruct (fair_run P s0 a0 ms R S F V (arbitrary_position s0)) as (p & rs & E & L & Q & Ok & M).
  { split; [reflexivity|]. split; [constructor|]. split; [reflexivity|]. split; auto. }
  exists p, rs. split; auto. split; auto. cbn [moves arbitrary_position pos_moves app] in Ok, M. split.
  - rewrite <- Ok, forallb_forall, Forall_forall. split; intros H r Ir; specialize (H r Ir); [now rewrite H|]. destruct r; auto; discriminate.
  - split; auto. pose proof (record_status P s0 a0 p R S F Q) as St. destruct Q as (_ & _ & G & _ & Sp). auto.
Qed.

Lemma since_count a past : forall n, since a n past = None -> (length (filter (same_setting a) past) < n)%nat.
Proof.
  induction past as [|b past IH]; intros [|n]; cbn [since filter length]; try discriminate; [lia|]. destruct (same_setting a b); intros H.
  - destruct (since a n past) eqn:E; [discriminate|]. cbn [length]. apply IH in E. lia.
  - destruct (since a (S n) past) eqn:E; [discriminate|]. now apply IH.
Qed.
Lemma since_some a past : forall n l, since a n past = Some l -> (n <= length (filter (same_setting a) past))%nat.
Proof.
  induction past as [|b past IH]; intros [|n] l; cbn [since filter length]; try discriminate; try lia. destruct (same_setting a b); intros H.
  - destruct (since a n past) eqn:E; [|discriminate]. cbn [length]. apply IH in E. lia.
  - destruct (since a (S n) past) eqn:E; [|discriminate]. now apply (IH _ l0).
Qed.
Lemma since_found a newer b older : forall n, same_setting a b = true -> length (filter (same_setting a) newer) = n ->
  since a (S n) (newer ++ b :: older) = Some (newer ++ [b]).
Proof.
  induction newer as [|x newer IH]; intros n Sb Cn; cbn [filter length] in Cn; cbn [app since].
  - subst n. rewrite Sb. destruct older; reflexivity.
  - destruct (same_setting a x); [destruct n as [|n]; [discriminate|]; cbn [length] in Cn; injection Cn as Cn|]; rewrite (IH n) by auto; reflexivity.
Qed.
(** C74: the rule spelt out: a position in which moves are left is in progress until its setting has occurred three times before; then it
    is lost for a player who gave check whenever the opponent was on turn since the first of these, unless both did, and otherwise drawn. *)
Lemma c74_rule_pf : forall a past, status_of a = PSInProgress ->
  (verdict a past = PSInProgress <-> (length (filter (same_setting a) past) < 3)%nat) /\
  forall newer b older, past = newer ++ b :: older -> same_setting a b = true -> length (filter (same_setting a) newer) = 2%nat ->
    let check_at c x := a_side x = opponent c -> check (a_board x) (opponent c) = true in
    let always c := forall x, In x (a :: newer) -> check_at c x in
    (verdict a past = PSWhiteWins <-> always Black /\ ~ always White) /\
    (verdict a past = PSBlackWins <-> always White /\ ~ always Black) /\
    (verdict a past = PSDraw <-> (always Black <-> always White)).
Proof.
  intros a past St. unfold verdict. rewrite St. split.
  - destruct (since a 3 past) eqn:E.
    + apply since_some in E. destruct (always_checked_by Black _), (always_checked_by White _); split; try discriminate; lia.
    + apply since_count in E. tauto.
  - intros newer b older -> Sb Cn. cbv zeta. pose proof (since_found a newer b older 2 Sb Cn) as E. rewrite E.
    assert (B : forall c, always_checked_by c (a :: newer ++ [b]) = true <-> forall x, In x (a :: newer) -> a_side x = opponent c -> check (a_board x) (opponent c) = true).
    { intros c. unfold always_checked_by. rewrite forallb_forall.
      assert (X : forall x, (if same_color (a_side x) c then true else check (a_board x) (a_side x)) = true <-> (a_side x = opponent c -> check (a_board x) (opponent c) = true)).
      { intros x. destruct (same_color_spec (a_side x) c) as [->|N].
        - split; auto. intros _ Q. exfalso. destruct c; discriminate.
        - assert (Q : a_side x = opponent c) by (destruct (a_side x), c; try reflexivity; exfalso; now apply N). rewrite Q. tauto. }
      split.
      - intros H x I. apply X, H. destruct I as [<-|I]; [now left|]. right. apply in_app_iff. now left.
      - intros H x I. apply X. destruct I as [<-|I]; [apply H; now left|]. apply in_app_iff in I as [I|[<-|[]]]; [apply H; now right|].
        apply same_setting_iff in Sb as (A & C & _). rewrite <- A, <- (check_ext _ _ _ C). apply H. now left. }
    rewrite <- !B. destruct (always_checked_by Black _), (always_checked_by White _); intuition discriminate.
Qed.

(** ** Every game ends *)
Definition code_content (x : option (piece_kind * color)) : N :=
  match x with None => 0 | Some (k, c) => kind_number k + match c with Black => 0 | White => 16 end end.
Definition code (a : apos) : list N :=
  match a_side a with Black => 0 | White => 1 end ::
  map (fun s => code_content (a_board a s)) squares ++ flat_map (fun c => map (a_hand a c) hand_kinds) [Black; White].
Lemma map_eq_in {A B} (f g : A -> B) l : map f l = map g l -> forall x, In x l -> f x = g x.
Proof. induction l as [|y l IH]; intros E x I; [destruct I|]. cbn [map] in E. injection E as E1 E2. destruct I as [<-|I]; auto. Qed.
Lemma code_content_inj x y : code_content x = code_content y -> x = y.
Proof. destruct x as [[[] []]|], y as [[[] []]|]; cbn; intros H; try discriminate H; reflexivity. Qed.
Lemma app_inj_length {A} (l l' m m' : list A) : length l = length l' -> l ++ m = l' ++ m' -> l = l' /\ m = m'.
Proof.
  revert l'. induction l as [|x l IH]; intros [|y l'] L E; try discriminate L; auto. cbn [app] in E. injection E as -> E. injection L as L.
  destruct (IH l' L E) as [-> ->]. auto.
Qed.
Lemma cons_inj {A} (x y : A) l m : x :: l = y :: m -> x = y /\ l = m.
Proof. intros E. injection E. auto. Qed.
Lemma code_same a b : code a = code b -> same_setting a b = true.
Proof.
  unfold code. intros E. apply cons_inj in E as [E1 E2]. apply app_inj_length in E2 as [E2 E3]; [|now rewrite !map_length].
  cbn [flat_map] in E3. apply app_inj_length in E3 as [E3 E4]; [|now rewrite !map_length]. rewrite !app_nil_r in E4. apply same_setting_iff. split; [|split].
  - destruct (a_side a), (a_side b); auto; discriminate.
  - intros s V. apply code_content_inj. apply In_squares in V. exact (map_eq_in _ _ _ E2 s V).
  - intros c k K. destruct c; [exact (map_eq_in _ _ _ E3 k K)|exact (map_eq_in _ _ _ E4 k K)].
Qed.
(** all lists of a length over a finite set of numbers *)
Fixpoint words (l : list N) (n : nat) : list (list N) :=
  match n with O => [[]] | S n => flat_map (fun x => map (cons x) (words l n)) l end.
Lemma in_words l w : (forall x, In x w -> In x l) -> In w (words l (length w)).
Proof.
  induction w as [|x w IH]; intros H; cbn [words length]; [now left|]. apply in_flat_map. exists x. split; [apply H; now left|].
  apply in_map, IH. intros y I. apply H. now right.
Qed.
Definition bytes_ : list N := map N.of_nat (seq 0 256).
Lemma in_bytes x : x < 256 -> In x bytes_.
Proof. intros H. unfold bytes_. apply in_map_iff. exists (N.to_nat x). split; [apply N2Nat.id|]. apply in_seq. lia. Qed.
Lemma code_length a b : length (code a) = length (code b).
Proof. unfold code. cbn [length flat_map]. rewrite !app_length, !map_length. reflexivity. Qed.
Lemma code_in a : few a -> In (code a) (words bytes_ (length (code a_opening))).
Proof.
  intros F. rewrite (code_length a_opening a). apply in_words. intros x I. apply in_bytes. unfold code in I. destruct I as [<-|I]; [destruct (a_side a); lia|].
  apply in_app_iff in I as [I|I].
  - apply in_map_iff in I as (s & <- & _). destruct (a_board a s) as [[[] []]|]; cbn; lia.
  - apply in_flat_map in I as (c & _ & I). apply in_map_iff in I as (k & <- & K). pose proof (few_hands a F c k K). lia.
Qed.
Lemma code_dec (x y : list N) : {x = y} + {x <> y}.
Proof. apply list_eq_dec, N.eq_dec. Qed.
Lemma count_remove (h : list (list N)) x : length h = (count_occ code_dec h x + length (remove code_dec x h))%nat.
Proof.
  induction h as [|y h IH]; cbn [count_occ remove length]; auto. destruct (code_dec y x) as [->|N].
  - destruct (code_dec x x); [|contradiction]. lia.
  - destruct (code_dec x y); [congruence|]. cbn [length]. lia.
Qed.
Lemma count_remove_le (h : list (list N)) x y : (count_occ code_dec (remove code_dec x h) y <= count_occ code_dec h y)%nat.
Proof.
  induction h as [|z h IH]; cbn [remove count_occ]; auto. destruct (code_dec x z); destruct (code_dec z y) eqn:E; cbn [count_occ]; rewrite ?E; lia.
Qed.
Lemma pigeon k L : forall h : list (list N), (forall x, In x h -> In x L) -> (forall x, count_occ code_dec h x <= k)%nat -> (length h <= k * length L)%nat.
Proof.
  induction L as [|x L IH]; intros h I C.
  - destruct h as [|y h]; [cbn; lia|]. destruct (I y). now left.
  - rewrite (count_remove h x). cbn [length]. rewrite Nat.mul_succ_r. assert (length (remove code_dec x h) <= k * length L)%nat.
    { apply IH; [|intros; eapply Nat.le_trans; [apply count_remove_le|apply C]]. intros y Iy. apply in_remove in Iy as [Iy N]. destruct (I y Iy) as [->|]; [contradiction|assumption]. }
    specialize (C x). lia.
Qed.
Lemma count_filter a past : (count_occ code_dec (map code past) (code a) <= length (filter (same_setting a) past))%nat.
Proof.
  induction past as [|b past IH]; cbn [map count_occ filter]; auto. destruct (code_dec (code b) (code a)) as [E|].
  - rewrite (code_same a b) by auto. cbn [length]. lia.
  - destruct (same_setting a b); cbn [length]; lia.
Qed.
Definition thrice (h : list apos) : Prop := forall x, (count_occ code_dec (map code h) x <= 3)%nat.
Lemma thrice_cons a past : thrice past -> since a 3 past = None -> thrice (a :: past).
Proof.
  intros T S x. cbn [map count_occ]. destruct (code_dec (code a) x) as [<-|]; [|apply T]. apply since_count in S. pose proof (count_filter a past). lia.
Qed.
Lemma fair_thrice ms : forall a past, few a -> Forall few past -> thrice past -> Forall valid_move ms -> fair_game a past ms = true ->
  thrice (trail a past ms) /\ Forall few (trail a past ms) /\ length (trail a past ms) = (length ms + length past)%nat.
Proof.
  induction ms as [|m ms IH]; intros a past F Fp T V G; cbn [trail]; [auto|]. inversion_clear V as [|? ? V1 V2]. cbn [fair_game] in G.
  destruct (ps_eqb _ _) eqn:Q; [|discriminate]. destruct (legal a m) eqn:Lm; [|discriminate]. apply progress in Q. pose proof (progress_safe a past Q) as L.
  apply progress_status in Q as [_ Q]. destruct (IH (after a m) (a :: past)) as (X & Y & Z); auto using few_after, thrice_cons.
  split; auto. split; auto. rewrite Z. cbn [length]. lia.
Qed.
(** C74: no fair game goes on for ever: there is a bound on the number of moves, the same for all positions to begin with. *)
Lemma c74_games_end_pf : exists n, forall a ms, few_pieces a -> Forall valid_move ms -> fair_game a [] ms = true -> (length ms <= n)%nat.
Proof.
  exists (3 * length (words bytes_ (length (code a_opening))))%nat. intros a ms F V G. apply few_iff in F.
  destruct (fair_thrice ms a [] F (Forall_nil _) (fun _ => Nat.le_0_l _) V G) as (T & Fp & L). cbn [length] in L. rewrite Nat.add_0_r in L. rewrite <- L, <- (map_length code).
  apply pigeon; auto. intros x I. apply in_map_iff in I as (b & <- & I). rewrite Forall_forall in Fp. now apply code_in, Fp.
Qed.

(** ** What finds a repetition and what does not *)
(** C74: the library's [==] and order do not find repetitions: after fewer than 65536 moves a position never equals what it was, even if
    all pieces are back, for the number of the move differs. *)
Lemma c74_equality_pf : forall P s ms s', reachable P s -> Forall valid_move ms -> run_ops P s (map OpMove ms) = Ret (s', repeat true (length ms)) ->
  ms <> [] -> N.of_nat (length ms) < 65536 -> pp_eqb s s' = false /\ pp_cmp s s' <> Eq.
Proof.
  intros P s ms s' R V E N L. destruct (c26_moves_pf P s ms R V) as (s2 & bs & E2 & _ & _ & Pl & _). rewrite E in E2. apply ret_inj in E2. injection E2 as <- <-.
  assert (Acc : accepted_moves ms (repeat true (length ms)) = ms).
  { clear. unfold accepted_moves. induction ms as [|m ms IH]; auto. cbn. now f_equal. }
  rewrite Acc in Pl. pose proof (wf_ply s (reachable_wf P s R)) as B. assert (length ms <> 0)%nat by (destruct ms; [contradiction|discriminate]).
  assert (X : pp_ply s <> pp_ply s').
  { change (pp_ply s') with (ply s'). rewrite Pl. change (pp_ply s) with (ply s) in *. intros Q.
    assert (D : (ply s + N.of_nat (length ms)) / 65536 = 0 \/ (ply s + N.of_nat (length ms)) / 65536 = 1).
    { assert ((ply s + N.of_nat (length ms)) / 65536 < 2) by (apply N.div_lt_upper_bound; lia). lia. }
    pose proof (N.div_mod' (ply s + N.of_nat (length ms)) 65536). rewrite <- Q in *. destruct D as [D|D]; rewrite D in *; lia. }
  split.
  - unfold pp_eqb. apply N.eqb_neq in X. rewrite X. now rewrite andb_false_r.
  - rewrite pp_cmp_eq. tauto.
Qed.
(** C74: the SFEN text with the number of the move set to one tells settings apart, and nothing else. *)
Lemma c74_text_pf : forall P s t a b, reachable P s -> reachable P t -> sees P s a -> sees P t b ->
  exists x y, setting_text P s = Ret x /\ setting_text P t = Ret y /\ (x = y <-> same_setting a b = true).
Proof.
  intros P s t a b R R' S S'. pose proof (reachable_wf P s R) as W. pose proof (reachable_wf P t R') as W'.
  assert (G : forall s a, reachable P s -> sees P s a -> reachable P (fst (ply_set s 1)) /\ sees P (fst (ply_set s 1)) (a_set_ply a 1)).
  { clear. intros s a R S. split.
    - apply (reachable_step P s (OpPly 1) _ true); auto; reflexivity.
    - destruct S as (A & B & C & D & E & F). repeat split; auto. }
  destruct (G s a R S) as [R1 S1]. destruct (G t b R' S') as [R2 S2]. unfold setting_text.
  destruct (c33_text_pf P _ _ R1 S1) as (_ & T1 & _). destruct (c33_text_pf P _ _ R2 S2) as (_ & T2 & _). pose proof (c33_same_text_pf P _ _ _ _ R1 R2 S1 S2) as Q.
  eexists _, _. split; [exact T1|]. split; [exact T2|]. rewrite T1, T2 in Q. rewrite same_setting_iff.
  assert (X : forall x y : list N, x = y <-> Ret x = Ret y) by (intros; split; [congruence|apply ret_inj]). rewrite X, Q. clear X Q.
  destruct S as (A & _ & C & _), S' as (A' & _ & C' & _). split.
  - intros (Q1 & _ & Q2 & Q3). change (side_to_move s = side_to_move t) in Q1. split; [congruence|]. split; auto. intros sq V. specialize (Q2 sq V).
    change (piece_at P s sq = piece_at P t sq) in Q2. rewrite C, C' in Q2 by auto. apply ret_inj in Q2.
    destruct (a_board a sq), (a_board b sq); cbn [option_map] in Q2; try discriminate; auto. f_equal. apply the_piece_inj. congruence.
  - intros (Q1 & Q2 & Q3). split; [change (side_to_move s = side_to_move t); congruence|]. split; [reflexivity|]. split; auto. intros sq V.
    change (piece_at P s sq = piece_at P t sq). rewrite C, C' by auto. now rewrite Q2.
Qed.
