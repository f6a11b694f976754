(** Proofs of the property theorems on the symmetries of the rules (restated in Prop_Symmetry.v). *)
From Verif Require Export SpecSymmetry.
From Coq Require Import Permutation.
From Verif Require Import LBase LSquare LPiece LBits LBitboard LHand LMove LPosition LRefine LAbstract LExt LEdit TPosition TLegal TGame TRules TRepeat TAttack LMirror.
From Verif Require TLaws.
(*PROPHEAD
Property theorems C77: the symmetries of the rules
From Verif Require Import LPiece LSample LSampleR LSampleS LRefine TPosition TLaws LSampleX.
*)

(** ** A symmetry: what it does to squares, players and directions *)
Record symmetry (q : square -> square) (g : color -> color) (w : Z * Z -> Z * Z) : Prop := Symmetry {
  y_valid : forall s, valid_square s -> valid_square (q s);
  y_twice : forall s, valid_square s -> q (q s) = s;
  y_color : forall c, g (g c) = c;
  y_opponent : forall c, g (opponent c) = opponent (g c);
  y_step : forall c s d, valid_square s -> step (g c) (q s) (w d) = option_map q (step c s d);
  y_steps : forall k d, In d (steps k) -> In (w d) (steps k);
  y_slides : forall k d, In d (slides k) -> In (w d) (slides k);
  y_rank : forall c s, valid_square s -> seen_by (g c) (rank_of (q s)) = seen_by c (rank_of s);
  y_file : forall s t, valid_square s -> valid_square t -> file_of s = file_of t -> file_of (q s) = file_of (q t)
}.
Definition paint (g : color -> color) (x : piece_kind * color) : piece_kind * color := (fst x, g (snd x)).
Definition carry (q : square -> square) (g : color -> color) (m : move) : move :=
  match m with
  | Normal f t pr => Normal (q f) (q t) pr
  | Drop p t => Drop (piece_of (kind_of p) (g (color_of p))) (q t)
  end.
Definition seen_as (q : square -> square) (g : color -> color) (b b' : board) : Prop :=
  forall s, valid_square s -> b' (q s) = option_map (paint g) (b s).
Definition alike (q : square -> square) (g : color -> color) (a b : apos) : Prop :=
  a_side b = g (a_side a) /\ seen_as q g (a_board a) (a_board b) /\ forall c k, In k hand_kinds -> a_hand b (g c) k = a_hand a c k.

Lemma iff_bool (x y : bool) : (x = true -> y = true) -> (y = true -> x = true) -> x = y.
Proof. destruct x, y; intros A B; try reflexivity; [symmetry|]; auto. Qed.
Lemma same_square_true s t : same_square s t = true <-> s = t.
Proof. destruct (same_square_spec s t); split; auto; congruence. Qed.
Lemma same_color_g q g w : symmetry q g w -> forall c d, same_color (g c) (g d) = same_color c d.
Proof.
  intros Y c d. apply iff_bool; intros E; apply same_color_true in E.
  - rewrite <- (y_color _ _ _ Y c), <- (y_color _ _ _ Y d), E. apply same_color_refl.
  - subst. apply same_color_refl.
Qed.
Lemma same_square_q q g w : symmetry q g w -> forall s t, valid_square s -> valid_square t -> same_square (q s) (q t) = same_square s t.
Proof.
  intros Y s t Vs Vt. apply iff_bool; intros E; apply same_square_true in E.
  - apply same_square_true. rewrite <- (y_twice _ _ _ Y s Vs), <- (y_twice _ _ _ Y t Vt). now f_equal.
  - apply same_square_true. now f_equal.
Qed.
Lemma In_reach b c k s t : In t (reach b c k s) <-> (exists d, In d (steps k) /\ step c s d = Some t) \/ (exists d, In d (slides k) /\ In t (ray b c d 8 s)).
Proof.
  unfold reach. rewrite in_app_iff, !in_flat_map. split; intros [(d & I & H)|H]; auto.
  - left. exists d. split; auto. destruct (step c s d); [destruct H as [<-|[]]; auto|destruct H].
  - left. exists d. split; auto. rewrite H. now left.
Qed.
Lemma seen_as_sym q g w b b' : symmetry q g w -> seen_as q g b b' -> seen_as q g b' b.
Proof.
  intros Y H s V. pose proof (H (q s) (y_valid _ _ _ Y s V)) as E. rewrite (y_twice _ _ _ Y s V) in E. rewrite E.
  destruct (b (q s)) as [[k c]|]; cbn [option_map]; auto. unfold paint. cbn [fst snd]. now rewrite (y_color _ _ _ Y).
Qed.
Lemma ray_sym q g w b b' c d : symmetry q g w -> seen_as q g b b' -> forall n s, valid_square s -> ray b' (g c) (w d) n (q s) = map q (ray b c d n s).
Proof.
  intros Y H. induction n as [|n IH]; intros s V; cbn [ray]; auto. rewrite (y_step _ _ _ Y c s d V). destruct (step c s d) as [t|] eqn:E; cbn [option_map map]; auto.
  apply step_valid in E. rewrite (H t E). f_equal. destruct (b t); cbn [option_map map]; auto.
Qed.
Lemma reach_one q g w b b' c k s t : symmetry q g w -> seen_as q g b b' -> valid_square s -> In t (reach b c k s) -> In (q t) (reach b' (g c) k (q s)).
Proof.
  intros Y H V I. apply In_reach in I as [(d & I & E)|(d & I & E)]; apply In_reach; [left|right]; exists (w d).
  - split; [now apply (y_steps _ _ _ Y)|]. now rewrite (y_step _ _ _ Y c s d V), E.
  - split; [now apply (y_slides _ _ _ Y)|]. rewrite (ray_sym q g w b b' c d Y H 8 s V). now apply in_map.
Qed.
Lemma attacks_one q g w b b' s t : symmetry q g w -> seen_as q g b b' -> valid_square s -> valid_square t -> attacks b s t = true -> attacks b' (q s) (q t) = true.
Proof.
  intros Y H V Vt. unfold attacks. rewrite (H s V). destruct (b s) as [[k c]|]; [|discriminate]. cbn [option_map paint fst snd]. rewrite !existsb_exists.
  intros (u & I & E). destruct (same_square_spec t u) as [<-|]; [|discriminate]. exists (q t). split; [eapply reach_one; eauto|apply same_square_refl].
Qed.
Lemma attacks_sym q g w b b' s t : symmetry q g w -> seen_as q g b b' -> valid_square s -> valid_square t -> attacks b' (q s) (q t) = attacks b s t.
Proof.
  intros Y H V Vt. apply iff_bool.
  - intros E. apply (attacks_one q g w b' b) in E; eauto using seen_as_sym, y_valid. now rewrite !(y_twice _ _ _ Y) in E.
  - now apply (attacks_one q g w).
Qed.
Lemma owned_sym q g w b b' c s : symmetry q g w -> seen_as q g b b' -> valid_square s -> owned_by b' (g c) (q s) = owned_by b c s.
Proof. intros Y H V. unfold owned_by. rewrite (H s V). destruct (b s) as [[k d]|]; cbn [option_map paint fst snd]; auto. now apply (same_color_g q g w). Qed.
Lemma king_sym q g w b b' c s : symmetry q g w -> seen_as q g b b' -> valid_square s -> is_king_of b' (g c) (q s) = is_king_of b c s.
Proof. intros Y H V. unfold is_king_of. rewrite (H s V). destruct (b s) as [[[] d]|]; cbn [option_map paint fst snd]; auto. now apply (same_color_g q g w). Qed.
(** squares are permuted *)
Lemma some_square q g w f f' : symmetry q g w -> (forall s, valid_square s -> f' (q s) = f s) -> existsb f' squares = existsb f squares.
Proof.
  intros Y H. apply iff_bool; rewrite !existsb_exists; intros (s & I & E); apply In_squares in I; exists (q s); (split; [apply In_squares; eauto using y_valid|]).
  - rewrite <- (y_twice _ _ _ Y s I) in E. rewrite H in E; auto. now apply (y_valid _ _ _ Y).
  - now rewrite H.
Qed.
Lemma check_sym q g w b b' c : symmetry q g w -> seen_as q g b b' -> check b' (g c) = check b c.
Proof.
  intros Y H. unfold check. apply (some_square q g w _ _ Y). intros s V. rewrite <- (y_opponent _ _ _ Y), (owned_sym q g w b b') by auto. destruct (owned_by b (opponent c) s); auto.
  apply (some_square q g w _ _ Y). intros t Vt. rewrite (king_sym q g w b b'), (attacks_sym q g w b b') by auto. reflexivity.
Qed.
Local Opaque check.
Lemma file_sym q g w s t : symmetry q g w -> valid_square s -> valid_square t -> (file_of (q s) =? file_of (q t)) = (file_of s =? file_of t).
Proof.
  intros Y V Vt. apply iff_bool; rewrite !N.eqb_eq; intros E.
  - rewrite <- (y_twice _ _ _ Y s V), <- (y_twice _ _ _ Y t Vt). apply (y_file _ _ _ Y); auto; now apply (y_valid _ _ _ Y).
  - now apply (y_file _ _ _ Y).
Qed.
Lemma pawn_on_file_sym q g w b b' c t : symmetry q g w -> seen_as q g b b' -> valid_square t -> pawn_on_file b' (g c) (file_of (q t)) = pawn_on_file b c (file_of t).
Proof.
  intros Y H V. unfold pawn_on_file. apply (some_square q g w _ _ Y). intros s Vs. rewrite (file_sym q g w), (H s Vs) by auto. destruct (file_of s =? file_of t); auto.
  destruct (b s) as [[[] d]|]; cbn [option_map paint fst snd]; auto. now apply (same_color_g q g w).
Qed.
Lemma stuck_sym q g w c k s : symmetry q g w -> valid_square s -> stuck (g c) k (q s) = stuck c k s.
Proof. intros Y V. unfold stuck. now rewrite (y_rank _ _ _ Y c s V). Qed.
Lemma in_camp_sym q g w c s : symmetry q g w -> valid_square s -> in_camp (g c) (q s) = in_camp c s.
Proof. intros Y V. unfold in_camp. now rewrite (y_rank _ _ _ Y c s V). Qed.
Lemma alike_sym q g w a b : symmetry q g w -> alike q g a b -> alike q g b a.
Proof.
  intros Y (A & B & C). split; [now rewrite A, (y_color _ _ _ Y)|]. split; [eapply seen_as_sym; eauto|]. intros c k K. rewrite <- (C (g c) k K). now rewrite (y_color _ _ _ Y).
Qed.
Lemma carry_valid q g w m : symmetry q g w -> valid_move m -> valid_move (carry q g m).
Proof. intros Y. destruct m as [f t pr|p t]; intros [V1 V2]; split; try (now apply (y_valid _ _ _ Y)). apply piece_of_valid. Qed.
Lemma carry_twice q g w m : symmetry q g w -> valid_move m -> carry q g (carry q g m) = m.
Proof.
  intros Y. destruct m as [f t pr|p t]; intros [V1 V2]; cbn [carry]; rewrite ?(y_twice _ _ _ Y) by auto; auto.
  rewrite kind_of_of, color_of_of, (y_color _ _ _ Y). now rewrite piece_of_parts.
Qed.
Lemma moves_right_sym q g w a b m : symmetry q g w -> alike q g a b -> valid_move m -> moves_right b (carry q g m) = moves_right a m.
Proof.
  intros Y (A & B & C) V. unfold moves_right. rewrite A. destruct m as [f t pr|p t]; destruct V as [V1 V2]; cbn [carry].
  - rewrite (B f V1). destruct (a_board a f) as [[k d]|]; cbn [option_map paint fst snd]; auto.
    rewrite (same_color_g q g w Y), (attacks_sym q g w _ _ f t Y B V1 V2), (owned_sym q g w _ _ _ t Y B V2), !(in_camp_sym q g w), (stuck_sym q g w) by auto. reflexivity.
  - rewrite kind_of_of, color_of_of, (same_color_g q g w Y). destruct (same_color _ _); auto. destruct (can_be_in_hand (kind_of p)) eqn:K; auto. apply can_be_in_hand_iff in K.
    rewrite (C (a_side a) _ K), (B t V2), (stuck_sym q g w), (pawn_on_file_sym q g w _ _ _ t Y B V2) by auto. destruct (a_board a t); reflexivity.
Qed.
Lemma after_sym q g w a b m : symmetry q g w -> alike q g a b -> valid_move m -> alike q g (after a m) (after b (carry q g m)).
Proof.
  intros Y (A & B & C) V. unfold after. rewrite A. destruct m as [f t pr|p t]; destruct V as [V1 V2]; cbn [carry]; (split; [|split]); cbn [a_side a_board a_hand];
    try (symmetry; apply (y_opponent _ _ _ Y)).
  - intros s Vs. rewrite !(same_square_q q g w Y), (B f V1), (B s Vs) by auto. destruct (same_square s t).
    + destruct (a_board a f) as [[k d]|]; reflexivity.
    + now destruct (same_square s f).
  - intros c k K. rewrite (B t V2). destruct (a_board a t) as [[e d]|]; cbn [option_map paint fst snd]; rewrite (C c k K); auto. now rewrite (same_color_g q g w Y).
  - intros s Vs. rewrite !(same_square_q q g w Y), (B s Vs) by auto. rewrite kind_of_of. now destruct (same_square s t).
  - intros c k K. rewrite kind_of_of, (C c k K), (same_color_g q g w Y). reflexivity.
Qed.
Lemma safe_sym q g w a b m : symmetry q g w -> alike q g a b -> valid_move m -> safe b (carry q g m) = safe a m.
Proof.
  intros Y H V. unfold safe. rewrite (moves_right_sym q g w a b m Y H V). destruct (moves_right a m); auto. f_equal.
  destruct (after_sym q g w a b m Y H V) as (_ & B & _). rewrite (proj1 H). exact (check_sym q g w _ _ (a_side a) Y B).
Qed.
Local Opaque safe.
Lemma safe_right a m : safe a m = true -> moves_right a m = true.
Proof. Local Transparent safe. unfold safe. destruct (moves_right a m); auto. Qed.
Local Opaque safe.
(** moves are permuted too *)
Lemma some_move q g w a b (f : apos -> move -> bool) : symmetry q g w -> (forall a m, f a m = true -> moves_right a m = true) ->
  (forall a b m, alike q g a b -> valid_move m -> f b (carry q g m) = f a m) ->
  alike q g a b -> existsb (f b) (candidates (a_side b)) = existsb (f a) (candidates (a_side a)).
Proof.
  intros Y R F. assert (One : forall a b, alike q g a b -> existsb (f a) (candidates (a_side a)) = true -> existsb (f b) (candidates (a_side b)) = true).
  { clear a b. intros a b H. rewrite !existsb_exists. intros (m & I & E). apply candidates_valid in I. exists (carry q g m). rewrite (F a b m H I). split; auto.
    apply in_candidates; [eapply carry_valid; eauto|]. rewrite (moves_right_sym q g w a b m Y H I). now apply R. }
  intros H. apply iff_bool; apply One; auto. eapply alike_sym; eauto.
Qed.
Lemma mate_sym q g w a b : symmetry q g w -> alike q g a b -> mate b = mate a.
Proof.
  intros Y H. unfold mate, no_way_out. rewrite (some_move q g w a b safe Y safe_right (fun a b m H V => safe_sym q g w a b m Y H V) H).
  rewrite (proj1 H), (check_sym q g w _ _ (a_side a) Y (proj1 (proj2 H))). reflexivity.
Qed.
Local Opaque mate.
Lemma legal_sym q g w a b m : symmetry q g w -> alike q g a b -> valid_move m -> legal b (carry q g m) = legal a m.
Proof.
  intros Y H V. unfold legal. rewrite (safe_sym q g w a b m Y H V). destruct (safe a m); [|reflexivity]. apply (f_equal negb). pose proof (after_sym q g w a b m Y H V) as Af.
  destruct m as [f t pr|p t]; [reflexivity|]. cbn [carry] in *. cbn [pawn_drop_mate]. rewrite kind_of_of. destruct (same_kind _ _); [|reflexivity]. exact (mate_sym q g w _ _ Y Af).
Qed.
Lemma turn_check_sym q g w a b : symmetry q g w -> alike q g a b -> check (a_board b) (opponent (a_side b)) = check (a_board a) (opponent (a_side a)).
Proof. intros Y H. rewrite (proj1 H), <- (y_opponent _ _ _ Y). exact (check_sym q g w _ _ _ Y (proj1 (proj2 H))). Qed.
Lemma allowed_sym q g w a b m : symmetry q g w -> alike q g a b -> valid_move m -> allowed b (carry q g m) = allowed a m.
Proof. intros Y H V. unfold allowed. rewrite (legal_sym q g w a b m Y H V), (turn_check_sym q g w a b Y H). reflexivity. Qed.
Lemma allowed_right a m : allowed a m = true -> moves_right a m = true.
Proof. unfold allowed. destruct (legal a m) eqn:E; [|discriminate]. intros _. exact (legal_right a m E). Qed.
Local Opaque legal.
Definition wins (c : color) : position_status := match c with Black => PSBlackWins | White => PSWhiteWins end.
Definition recolor (g : color -> color) (st : position_status) : position_status :=
  match st with PSBlackWins => wins (g Black) | PSWhiteWins => wins (g White) | st => st end.
Lemma status_sym q g w a b : symmetry q g w -> alike q g a b -> status_of b = recolor g (status_of a).
Proof.
  intros Y H. unfold status_of. rewrite (some_move q g w a b legal Y legal_right (fun a b m H V => legal_sym q g w a b m Y H V) H), (turn_check_sym q g w a b Y H).
  destruct (check _ _); [reflexivity|]. destruct (existsb _ _); [reflexivity|]. rewrite (proj1 H). pose proof (y_opponent _ _ _ Y (a_side a)) as O.
  destruct (a_side a); cbn [opponent] in O; cbn [recolor]; rewrite O; [destruct (g Black)|destruct (g White)]; reflexivity.
Qed.
Local Opaque status_of.
Lemma recolor_progress g st : ps_eqb (recolor g st) PSInProgress = ps_eqb st PSInProgress.
Proof. destruct st; cbn [recolor]; auto; now destruct (g _). Qed.
Lemma fault_sym q g w a b m : symmetry q g w -> alike q g a b -> valid_move m -> fault b (carry q g m) = fault a m.
Proof.
  intros Y H V. unfold fault. rewrite (status_sym q g w a b Y H), recolor_progress, (moves_right_sym q g w a b m Y H V), (safe_sym q g w a b m Y H V).
  destruct (negb _); [reflexivity|]. destruct (moves_right a m); [reflexivity|]. destruct H as (A & B & C). rewrite A. destruct m as [f t pr|p t]; destruct V as [V1 V2]; cbn [carry].
  - rewrite (B f V1). destruct (a_board a f) as [[k d]|]; cbn [option_map paint fst snd]; [|reflexivity].
    rewrite (same_color_g q g w Y), (attacks_sym q g w _ _ f t Y B V1 V2), (owned_sym q g w _ _ _ t Y B V2). reflexivity.
  - rewrite kind_of_of, color_of_of, (same_color_g q g w Y). destruct (same_color _ _); [|reflexivity]. destruct (can_be_in_hand (kind_of p)) eqn:K; [|reflexivity]. apply can_be_in_hand_iff in K.
    rewrite (C (a_side a) _ K), (B t V2), (stuck_sym q g w) by auto. destruct (a_board a t); reflexivity.
Qed.
Local Opaque fault.
(** ** Settings and games *)
Lemma setting_one q g w a b a' b' : symmetry q g w -> alike q g a a' -> alike q g b b' -> same_setting a b = true -> same_setting a' b' = true.
Proof.
  intros Y (A1 & A2 & A3) (B1 & B2 & B3). rewrite !same_setting_iff. intros (E & F & G). split; [now rewrite A1, B1, E|]. split.
  - intros s V. rewrite <- (y_twice _ _ _ Y s V). pose proof (y_valid _ _ _ Y s V) as V'. rewrite (A2 _ V'), (B2 _ V'). now rewrite F.
  - intros c k K. rewrite <- (y_color _ _ _ Y c). rewrite (A3 _ k K), (B3 _ k K). now apply G.
Qed.
Lemma setting_sym q g w a b a' b' : symmetry q g w -> alike q g a a' -> alike q g b b' -> same_setting a' b' = same_setting a b.
Proof. intros Y A B. apply iff_bool; [apply (setting_one q g w); eauto using alike_sym|now apply (setting_one q g w)]. Qed.
Lemma since_sym q g w a a' l : forall l' n, symmetry q g w -> alike q g a a' -> Forall2 (alike q g) l l' ->
  match since a n l, since a' n l' with Some x, Some y => Forall2 (alike q g) x y | None, None => True | _, _ => False end.
Proof.
  induction l as [|b l IH]; intros l' [|n] Y A F; inversion_clear F as [|? b' ? l1 B F1]; cbn [since]; auto.
  rewrite (setting_sym q g w a b a' b' Y A B). specialize (IH l1 (if same_setting a b then n else S n) Y A F1).
  destruct (since a _ l), (since a' _ l1); cbn [option_map]; auto.
Qed.
Lemma always_sym q g w c l l' : symmetry q g w -> Forall2 (alike q g) l l' -> always_checked_by (g c) l' = always_checked_by c l.
Proof.
  intros Y F. unfold always_checked_by. induction F as [|a a' l l' A F IH]; cbn [forallb]; [reflexivity|]. rewrite IH. f_equal. rewrite (proj1 A), (same_color_g q g w Y).
  rewrite (check_sym q g w _ _ (a_side a) Y (proj1 (proj2 A))). reflexivity.
Qed.
Lemma verdict_sym q g w a a' l l' : symmetry q g w -> alike q g a a' -> Forall2 (alike q g) l l' -> verdict a' l' = recolor g (verdict a l).
Proof.
  intros Y A F. unfold verdict. rewrite (status_sym q g w a a' Y A). pose proof (since_sym q g w a a' l l' 3 Y A F) as Q. pose proof (y_opponent _ _ _ Y Black) as O. cbn [opponent] in O.
  destruct (status_of a); cbn [recolor]; try reflexivity; try (now destruct (g Black)); try (now destruct (g White)).
  destruct (since a 3 l) as [x|], (since a' 3 l') as [y|]; try contradiction; [|reflexivity].
  assert (Al : forall c, always_checked_by (g c) (a' :: y) = always_checked_by c (a :: x)) by (intros c; apply (always_sym q g w); auto).
  pose proof (Al Black) as AB. pose proof (Al White) as AW. rewrite O in AW. destruct (g Black) eqn:GB; cbn [opponent] in *; rewrite AB, AW;
    destruct (always_checked_by Black (a :: x)), (always_checked_by White (a :: x)); cbn [recolor]; rewrite ?GB, ?O; reflexivity.
Qed.
Lemma after_all_sym q g w ms : forall a b, symmetry q g w -> alike q g a b -> Forall valid_move ms -> alike q g (after_all a ms) (after_all b (map (carry q g) ms)).
Proof.
  induction ms as [|m ms IH]; intros a b Y H V; [exact H|]. inversion_clear V as [|? ? V1 V2]. cbn [map]. unfold after_all in *. cbn [fold_left]. apply IH; auto. now apply (after_sym q g w).
Qed.
Lemma trail_sym q g w ms : forall a b l l', symmetry q g w -> alike q g a b -> Forall2 (alike q g) l l' -> Forall valid_move ms ->
  Forall2 (alike q g) (trail a l ms) (trail b l' (map (carry q g) ms)).
Proof.
  induction ms as [|m ms IH]; intros a b l l' Y H F V; [exact F|]. inversion_clear V as [|? ? V1 V2]. cbn [map trail]. apply IH; auto. now apply (after_sym q g w).
Qed.
Lemma legal_game_sym q g w ms : forall a b, symmetry q g w -> alike q g a b -> Forall valid_move ms -> legal_game b (map (carry q g) ms) = legal_game a ms.
Proof.
  induction ms as [|m ms IH]; intros a b Y H V; [reflexivity|]. inversion_clear V as [|? ? V1 V2]. cbn [map legal_game]. rewrite (legal_sym q g w a b m Y H V1).
  rewrite (IH (after a m)); auto. now apply (after_sym q g w).
Qed.
Lemma fair_game_sym q g w ms : forall a b l l', symmetry q g w -> alike q g a b -> Forall2 (alike q g) l l' -> Forall valid_move ms ->
  fair_game b l' (map (carry q g) ms) = fair_game a l ms.
Proof.
  induction ms as [|m ms IH]; intros a b l l' Y H F V; [reflexivity|]. inversion_clear V as [|? ? V1 V2]. cbn [map fair_game].
  rewrite (verdict_sym q g w a b l l' Y H F), recolor_progress, (legal_sym q g w a b m Y H V1). rewrite (IH (after a m) _ (a :: l)); auto. now apply (after_sym q g w).
Qed.
Lemma standing_sym q g w ms a b : symmetry q g w -> alike q g a b -> Forall valid_move ms -> standing b (map (carry q g) ms) = recolor g (standing a ms).
Proof.
  intros Y H V. unfold standing. rewrite (fair_game_sym q g w ms a b [] [] Y H) by auto. destruct (fair_game a [] ms); [|reflexivity].
  apply (verdict_sym q g w); auto; [now apply (after_all_sym q g w)|now apply (trail_sym q g w)].
Qed.
Lemma NoDup_map_on {A B} (f : A -> B) l : (forall x y, In x l -> In y l -> f x = f y -> x = y) -> NoDup l -> NoDup (map f l).
Proof.
  intros H N. induction N as [|x l I N IH]; cbn [map]; constructor.
  - intros J. apply in_map_iff in J as (y & E & J). apply I. rewrite <- (H y x); auto; [now right|now left].
  - apply IH. intros. apply H; auto; now right.
Qed.
Local Transparent cnt.
Lemma cnt_one q g w b b' k : symmetry q g w -> seen_as q g b b' -> let f x := same_kind (base_kind (@fst piece_kind color x)) k in (cnt f b <= cnt f b')%nat.
Proof.
  intros Y H f. unfold cnt. rewrite <- (map_length q (filter _ squares)). apply NoDup_incl_length.
  - apply NoDup_map_on; [|apply NoDup_filter; rewrite squares_eq; apply all_squares_NoDup].
    intros x y Ix Iy E. apply filter_In in Ix as [Ix _]. apply filter_In in Iy as [Iy _]. apply In_squares in Ix, Iy. rewrite <- (y_twice _ _ _ Y x Ix), <- (y_twice _ _ _ Y y Iy). now f_equal.
  - intros x I. apply in_map_iff in I as (s & <- & I). apply filter_In in I as [I E]. apply In_squares in I. apply filter_In. split; [apply In_squares; now apply (y_valid _ _ _ Y)|].
    rewrite (H s I). destruct (b s) as [[j d]|]; [exact E|discriminate].
Qed.
Local Opaque cnt.
Lemma few_sym q g w a b : symmetry q g w -> alike q g a b -> few a -> few b.
Proof.
  intros Y H F k K. specialize (F k K). destruct (alike_sym q g w a b Y H) as (_ & B' & _). destruct H as (_ & B & C). unfold total in *.
  pose proof (cnt_one q g w _ _ k Y B) as L1. pose proof (cnt_one q g w _ _ k Y B') as L2. cbv zeta in *.
  pose proof (C Black k K) as HB. pose proof (C White k K) as HW. pose proof (y_opponent _ _ _ Y Black) as O. cbn [opponent] in O. rewrite O in HW.
  destruct (g Black); cbn [opponent] in HW; rewrite HB, HW; lia.
Qed.
Lemma alike_aeq q g w a b a' b' : symmetry q g w -> aeq a a' -> aeq b b' -> alike q g a b -> alike q g a' b'.
Proof.
  intros Y (A1 & _ & A2 & A3 & _) (B1 & _ & B2 & B3 & _) (C1 & C2 & C3). split; [congruence|]. split.
  - intros s V. rewrite <- (A2 s V), <- B2; auto. now apply (y_valid _ _ _ Y).
  - intros c k K. rewrite <- (A3 c k K), <- (B3 _ k K). now apply C3.
Qed.
(** ** What the library says of two positions that are alike *)
Lemma looks_alike q g w P s t a b : symmetry q g w -> alike q g a b -> reachable P s -> reachable P t -> sees P s a -> sees P t b ->
  exists x y, look P s = Ret x /\ look P t = Ret y /\ alike q g x y.
Proof.
  intros Y H R R' S S'. destruct (look_sees P s a R S) as (x & E & A), (look_sees P t b R' S') as (y & E' & B). exists x, y. split; auto. split; auto.
  apply (alike_aeq q g w a b); auto using aeq_sym.
Qed.
Lemma all_sym q g w a b : symmetry q g w -> alike q g a b ->
  NoDup (filter (allowed b) (candidates (a_side b))) /\ Permutation (filter (allowed b) (candidates (a_side b))) (map (carry q g) (filter (allowed a) (candidates (a_side a)))).
Proof.
  intros Y H. assert (N : NoDup (filter (allowed b) (candidates (a_side b)))) by apply NoDup_filter, candidates_NoDup. split; auto. apply NoDup_Permutation; auto.
  - apply NoDup_map_on; [|apply NoDup_filter, candidates_NoDup]. intros x y Ix Iy E. apply filter_In in Ix as [Ix _]. apply filter_In in Iy as [Iy _]. apply candidates_valid in Ix, Iy.
    rewrite <- (carry_twice q g w x Y Ix), <- (carry_twice q g w y Y Iy). now f_equal.
  - assert (One : forall a b m, alike q g a b -> In m (filter (allowed a) (candidates (a_side a))) -> In (carry q g m) (filter (allowed b) (candidates (a_side b)))).
    { clear a b H N. intros a b m H I. apply filter_In in I as [I E]. apply candidates_valid in I. rewrite <- (allowed_sym q g w a b m Y H I) in E. apply filter_In. split; auto.
      apply in_candidates; [eapply carry_valid; eauto|now apply allowed_right]. }
    intros m. rewrite in_map_iff. split.
    + intros I. exists (carry q g m). pose proof I as J. apply filter_In in J as [J _]. apply candidates_valid in J. split; [now apply (carry_twice q g w)|]. apply (One b a); auto. eapply alike_sym; eauto.
    + intros (m' & <- & I). now apply (One a b).
Qed.
Lemma answers_sym q g w P s t a b m : symmetry q g w -> alike q g a b -> reachable P s -> reachable P t -> sees P s a -> sees P t b -> valid_move m -> let L := rules_checker P in
  (exists r, lc_is_legal_partial L s m = Ret r /\ lc_is_legal_partial L t (carry q g m) = Ret r) /\
  (exists r, lc_is_legal_partial_lite L s m = Ret r /\ lc_is_legal_partial_lite L t (carry q g m) = Ret r) /\
  calls_agree (recolor g) (lc_status_partial L s) (lc_status_partial L t) /\
  lists_agree (carry q g) (lc_all_legal_moves_partial L s) (lc_all_legal_moves_partial L t).
Proof.
  intros Y H R R' S S' V L. destruct (looks_alike q g w P s t a b Y H R R' S S') as (x & y & E & E' & X). unfold L, rules_checker, rules_status.
  cbn [lc_is_legal_partial lc_is_legal_partial_lite lc_status_partial lc_all_legal_moves_partial]. rewrite E, E'. cbn [bind].
  rewrite (allowed_sym q g w x y m Y X V), (fault_sym q g w x y m Y X V), (status_sym q g w x y Y X). split; [|split; [|split]].
  - eexists. split; reflexivity.
  - eexists. split; reflexivity.
  - eexists. split; reflexivity.
  - destruct (all_sym q g w x y Y X) as [N Q]. eexists _, _. split; [reflexivity|]. split; [reflexivity|]. split; [exact N|exact Q].
Qed.
(** bitboards *)
Definition carried (q : square -> square) (P : profile) (x y : res bitboard) : Prop := exists b b', x = Ret b /\ y = Ret b' /\ valid_bb b /\ valid_bb b' /\
  forall s, valid_square s -> bb_contains P b' (q s) = bb_contains P b s.
Lemma carried_is q g w P x y b b' f f' : symmetry q g w -> x = Ret b -> y = Ret b' -> bb_is P b f -> bb_is P b' f' -> (forall s, valid_square s -> f' (q s) = f s) -> carried q P x y.
Proof.
  intros Y E E' [V B] [V' B'] H. exists b, b'. do 4 (split; auto). intros s Vs. rewrite (B s Vs), (B' (q s) (y_valid _ _ _ Y s Vs)). now rewrite (H s Vs).
Qed.
Lemma boards_sym q g w P s t a b from to p : symmetry q g w -> alike q g a b -> reachable P s -> reachable P t -> sees P s a -> sees P t b ->
  valid_square from -> valid_square to -> valid_piece p -> let L := rules_checker P in let p' := piece_of (kind_of p) (g (color_of p)) in
  carried q P (lc_normal_from_candidates L s from) (lc_normal_from_candidates L t (q from)) /\
  carried q P (lc_normal_to_candidates L s to p) (lc_normal_to_candidates L t (q to) p') /\
  carried q P (lc_drop_candidates L s p) (lc_drop_candidates L t p').
Proof.
  intros Y H R R' S S' Vf Vt Vp L p'. destruct (looks_alike q g w P s t a b Y H R R' S S') as (x & y & E & E' & X). unfold L, rules_checker.
  cbn [lc_normal_from_candidates lc_normal_to_candidates lc_drop_candidates]. unfold rules_from, rules_to, rules_drop. rewrite E, E'. cbn [bind].
  assert (N : forall f t pr, valid_square f -> valid_square t -> allowed y (Normal (q f) (q t) pr) = allowed x (Normal f t pr)).
  { intros f t' pr V1 V2. exact (allowed_sym q g w x y (Normal f t' pr) Y X (conj V1 V2)). }
  split; [|split]; match goal with |- carried _ _ (collect_squares P (filter ?f squares)) (collect_squares P (filter ?f' squares)) =>
    destruct (collect_filter P f) as (u & Eu & Bu); destruct (collect_filter P f') as (v & Ev & Bv); apply (carried_is q g w P _ _ u v f f' Y Eu Ev Bu Bv) end; intros c Vc.
  - now rewrite !N.
  - destruct X as (_ & B & _). rewrite (B c Vc). destruct (a_board x c) as [[k d]|]; cbn [option_map paint fst snd]; auto. rewrite !N by auto.
    assert (Pe : piece_eqb (the_piece (k, g d)) p' = piece_eqb (the_piece (k, d)) p); [|unfold paint; cbn [fst snd]; rewrite Pe; reflexivity]. symmetry. apply iff_bool; rewrite !piece_eqb_eq; intros Q; unfold the_piece in *; cbn [fst snd] in *.
    + subst p. unfold p'. now rewrite kind_of_of, color_of_of.
    + pose proof (f_equal kind_of Q) as K. pose proof (f_equal color_of Q) as C. unfold p' in K, C. rewrite !kind_of_of in K. rewrite !color_of_of in C. subst k.
      rewrite <- (y_color _ _ _ Y d), C, (y_color _ _ _ Y). now apply piece_of_parts.
  - exact (allowed_sym q g w x y (Drop p c) Y X (conj Vp Vc)).
Qed.
Lemma attacked_sym q g w b b' c t : symmetry q g w -> seen_as q g b b' -> valid_square t -> attacked_by b' (g c) (q t) = attacked_by b c t.
Proof.
  intros Y H V. unfold attacked_by. apply (some_square q g w _ _ Y). intros s Vs. now rewrite (owned_sym q g w b b' c s Y H Vs), (attacks_sym q g w b b' s t Y H Vs V).
Qed.
Lemma client_sym q g w P s t a b c from : symmetry q g w -> alike q g a b -> reachable P s -> reachable P t -> sees P s a -> sees P t b -> valid_square from ->
  carried q P (attack_set P s c) (attack_set P t (g c)) /\
  in_check P t (g c) = in_check P s c /\
  carried q P (destinations P s from) (destinations P t (q from)) /\
  carried q P (pawn_drops P s c) (pawn_drops P t (g c)).
Proof.
  intros Y H R R' S S' V. destruct H as (A & B & C). split; [|split; [|split]].
  - destruct (c73_attacks_pf P s a c R S) as (x & E & X). destruct (c73_attacks_pf P t b (g c) R' S') as (y & E' & Z). apply (carried_is q g w P _ _ x y _ _ Y E E' X Z).
    intros u Vu. now apply (attacked_sym q g w).
  - rewrite (c73_check_pf P s a c R S), (c73_check_pf P t b (g c) R' S'). f_equal. exact (check_sym q g w _ _ c Y B).
  - destruct (c73_destinations_pf P s a from R S V) as (x & E & X & _). destruct (c73_destinations_pf P t b (q from) R' S' (y_valid _ _ _ Y _ V)) as (y & E' & Z & _).
    apply (carried_is q g w P _ _ x y _ _ Y E E' X Z). intros u Vu. cbv beta. rewrite (B from V). destruct (a_board a from) as [[k d]|]; cbn [option_map paint fst snd]; auto.
    now rewrite (attacks_sym q g w _ _ from u Y B V Vu), (owned_sym q g w _ _ d u Y B Vu).
  - destruct (pawn_drops_ok P s a c R S) as (x & E & Vx & X). destruct (pawn_drops_ok P t b (g c) R' S') as (y & E' & Vy & Z). exists x, y. do 4 (split; auto). intros u Vu.
    pose proof (y_valid _ _ _ Y u Vu) as Vq. rewrite !bb_contains_ok by auto. f_equal. apply eq_true_iff_eq. rewrite (X u Vu), (Z (q u) Vq), (B u Vu), (pawn_on_file_sym q g w _ _ c u Y B Vu), (stuck_sym q g w) by auto.
    destruct (a_board a u); cbn [option_map]; intuition discriminate.
Qed.
(** a whole game *)
Lemma game_sym q g w P s0 t0 a0 b0 ms : symmetry q g w -> alike q g a0 b0 -> reachable P s0 -> reachable P t0 -> sees P s0 a0 -> sees P t0 b0 -> few a0 -> Forall valid_move ms ->
  forall p p', fair_record P s0 a0 p -> fair_record P t0 b0 p' -> moves p' = map (carry q g) (moves p) ->
  exists p1 p1' rs, lc_play P (full_checker P) p ms = Ret (p1, rs) /\ lc_play P (full_checker P) p' (map (carry q g) ms) = Ret (p1', rs) /\
    fair_record P s0 a0 p1 /\ fair_record P t0 b0 p1' /\ moves p1' = map (carry q g) (moves p1).
Proof.
  intros Y H R R' S S' F V. pose proof (few_sym q g w a0 b0 Y H F) as F'. induction V as [|m ms Vm V IH]; intros p p' Q Q' M; cbn [lc_play map].
  - exists p, p', []. auto 10.
  - assert (r_eq : lc_is_legal (full_checker P) p' (carry q g m) = lc_is_legal (full_checker P) p m).
    { unfold lc_is_legal. change (lc_status (full_checker P)) with (full_status P). rewrite (record_status P s0 a0 p R S F Q), (record_status P t0 b0 p' R' S' F' Q'). cbn [bind]. rewrite M.
      destruct Q as (_ & Vp & _ & Rp & Sp), Q' as (_ & _ & _ & Rp' & Sp'). rewrite M in Sp'.
      pose proof (after_all_sym q g w (moves p) a0 b0 Y H Vp) as Al. rewrite (verdict_sym q g w _ _ _ _ Y Al (trail_sym q g w (moves p) a0 b0 [] [] Y H (Forall2_nil _) Vp)), recolor_progress.
      destruct (negb _); [reflexivity|]. destruct (answers_sym q g w P _ _ _ _ m Y Al Rp Rp' Sp Sp' Vm) as ((r & E & E') & _).
      change (lc_is_legal_partial (full_checker P)) with (lc_is_legal_partial (rules_checker P)). congruence. }
    destruct (record_step P s0 a0 p m R S F Q Vm) as (p1 & r & E & Q1 & Ok & M1). destruct (record_step P t0 b0 p' (carry q g m) R' S' F' Q' (carry_valid q g w m Y Vm)) as (p1' & r' & E' & Q1' & Ok' & M1').
    assert (r' = r) as ->.
    { unfold lc_make_move in E, E'. rewrite r_eq in E'. destruct (lc_is_legal (full_checker P) p m) as [[|e]| |]; cbn [bind] in *; try discriminate.
      - destruct (pos_make_move P p m) as [[? ?]| |]; [|discriminate..]. destruct (pos_make_move P p' _) as [[? ?]| |]; [|discriminate..]. cbn [bind] in *.
        destruct (debug_assert _ _); [|discriminate..]. destruct (debug_assert P (is_some o0)); [|discriminate..]. cbn [bind] in *. congruence.
      - congruence. }
    assert (M1s : moves p1' = map (carry q g) (moves p1)) by (rewrite M1, M1', M; destruct (is_ok r); [now rewrite map_app|reflexivity]).
    destruct (IH p1 p1' Q1 Q1' M1s) as (p2 & p2' & rs & E2 & E2' & Q2 & Q2' & M2). rewrite E, E'. cbn [bind]. rewrite E2, E2'. cbn [bind]. exists p2, p2', (r :: rs). auto 10.
Qed.
Lemma squares_all (f h : square -> N) : forallb (fun s => f s =? h s) squares = true -> forall s, valid_square s -> f s = h s.
Proof. intros H s V. rewrite forallb_forall in H. apply N.eqb_eq, H. now apply In_squares. Qed.
(** ** The board turned round *)
Lemma turned_file s : valid_square s -> file_of (mirror_square s) = 10 - file_of s.
Proof. apply (squares_all (fun s => file_of (mirror_square s)) (fun s => 10 - file_of s)). vm_compute. reflexivity. Qed.
Lemma turned_rank s : valid_square s -> rank_of (mirror_square s) = 10 - rank_of s.
Proof. apply (squares_all (fun s => rank_of (mirror_square s)) (fun s => 10 - rank_of s)). vm_compute. reflexivity. Qed.
Lemma turned_step c s d : valid_square s -> step (opponent c) (mirror_square s) d = option_map mirror_square (step c s d).
Proof.
  intros V. unfold step. rewrite turned_file, turned_rank by auto. pose proof (file_bounds s V). pose proof (rank_bounds s). rewrite !N2Z.inj_sub by lia.
  set (f := file_of s) in *. set (r := rank_of s) in *. set (x := fst d). set (y := snd d).
  assert (G : forall e, (e = 1 \/ e = -1)%Z ->
    (if ((1 <=? (Z.of_N 10 - Z.of_N f) + - e * x) && ((Z.of_N 10 - Z.of_N f) + - e * x <=? 9) && (1 <=? (Z.of_N 10 - Z.of_N r) + - e * y) && ((Z.of_N 10 - Z.of_N r) + - e * y <=? 9))%Z
     then Some (square_at (Z.to_N ((Z.of_N 10 - Z.of_N f) + - e * x)) (Z.to_N ((Z.of_N 10 - Z.of_N r) + - e * y))) else None) =
    option_map mirror_square (if ((1 <=? Z.of_N f + e * x) && (Z.of_N f + e * x <=? 9) && (1 <=? Z.of_N r + e * y) && (Z.of_N r + e * y <=? 9))%Z
     then Some (square_at (Z.to_N (Z.of_N f + e * x)) (Z.to_N (Z.of_N r + e * y))) else None)).
  { intros e He. replace (- e * x)%Z with (- (e * x))%Z by lia. replace (- e * y)%Z with (- (e * y))%Z by lia. set (ex := (e * x)%Z). set (ey := (e * y)%Z). clearbody ex ey.
    destruct ((1 <=? Z.of_N f + ex) && (Z.of_N f + ex <=? 9) && (1 <=? Z.of_N r + ey) && (Z.of_N r + ey <=? 9))%Z eqn:Q.
    - replace ((1 <=? Z.of_N 10 - Z.of_N f + - ex) && (Z.of_N 10 - Z.of_N f + - ex <=? 9) && (1 <=? Z.of_N 10 - Z.of_N r + - ey) && (Z.of_N 10 - Z.of_N r + - ey <=? 9))%Z with true by (clear -Q; lia).
      cbn [option_map]. f_equal. unfold mirror_square, square_at. cbn [sq_repr]. f_equal. lia.
    - replace ((1 <=? Z.of_N 10 - Z.of_N f + - ex) && (Z.of_N 10 - Z.of_N f + - ex <=? 9) && (1 <=? Z.of_N 10 - Z.of_N r + - ey) && (Z.of_N 10 - Z.of_N r + - ey <=? 9))%Z with false by (clear -Q; lia).
      reflexivity. }
  destruct c; cbn [opponent]; [exact (G 1%Z (or_introl eq_refl))|exact (G (-1)%Z (or_intror eq_refl))].
Qed.
Lemma turning : symmetry mirror_square opponent (fun d => d).
Proof.
  split; auto using mirror_square_valid, mirror_square_involutive, turned_step.
  - now intros [].
  - intros c s V. rewrite turned_rank by auto. pose proof (rank_bounds s). destruct c; cbn [seen_by opponent]; lia.
  - intros s t V Vt E. now rewrite !turned_file, E.
Qed.
Lemma turned_alike a : alike mirror_square opponent a (mirror a).
Proof.
  split; [reflexivity|]. split; [|intros c k _; cbn [mirror a_hand]; destruct c; reflexivity]. intros s V. cbn [mirror a_board]. now rewrite mirror_square_involutive.
Qed.
Lemma turned_move : carry mirror_square opponent = mirror_move.
Proof. reflexivity. Qed.
Lemma turned_flip P x y : carried mirror_square P x y -> (b <- x;; bb_flip P b) = y /\ exists b, y = Ret b.
Proof.
  intros (b & b' & -> & -> & V & V' & H). cbn [bind]. split; [|eauto]. destruct (bb_flip_ok P b) as (c & -> & Vc & M). f_equal. apply member_ext; auto. intros s Vs.
  assert (E : rotate (mirror_square s) = s).
  { unfold rotate. rewrite turned_file, turned_rank by auto. pose proof (file_bounds s Vs). pose proof (rank_bounds s).
    replace (10 - (10 - file_of s)) with (file_of s) by lia. replace (10 - (10 - rank_of s)) with (rank_of s) by lia. apply square_inj. apply (squares_all (fun s => sq_repr (square_at (file_of s) (rank_of s))) sq_repr); auto. }
  pose proof (M V (mirror_square s) (mirror_square_valid s Vs)) as M1. rewrite E in M1. pose proof (H (mirror_square s) (mirror_square_valid s Vs)) as H1.
  rewrite mirror_square_involutive in H1 by auto. rewrite !bb_contains_ok in H1 by auto using mirror_square_valid. apply ret_inj in H1. congruence.
Qed.
(** ** The board reflected *)
Lemma left_right_file s : valid_square s -> file_of (left_right s) = 10 - file_of s.
Proof. apply (squares_all (fun s => file_of (left_right s)) (fun s => 10 - file_of s)). vm_compute. reflexivity. Qed.
Lemma left_right_rank s : valid_square s -> rank_of (left_right s) = rank_of s.
Proof. apply (squares_all (fun s => rank_of (left_right s)) (fun s => rank_of s)). vm_compute. reflexivity. Qed.
Definition across (d : Z * Z) : Z * Z := (- fst d, snd d)%Z.
Lemma reflected_step c s d : valid_square s -> step c (left_right s) (across d) = option_map left_right (step c s d).
Proof.
  intros V. unfold step. rewrite left_right_file, left_right_rank by auto. pose proof (file_bounds s V). pose proof (rank_bounds s). rewrite !N2Z.inj_sub by lia. cbn [across fst snd].
  set (e := match c with Black => 1 | White => -1 end%Z). set (f := file_of s) in *. set (r := rank_of s) in *. replace (e * - fst d)%Z with (- (e * fst d))%Z by lia.
  set (ex := (e * fst d)%Z). set (ey := (e * snd d)%Z). clearbody ex ey.
  destruct ((1 <=? Z.of_N f + ex) && (Z.of_N f + ex <=? 9) && (1 <=? Z.of_N r + ey) && (Z.of_N r + ey <=? 9))%Z eqn:Q.
  - replace ((1 <=? Z.of_N 10 - Z.of_N f + - ex) && (Z.of_N 10 - Z.of_N f + - ex <=? 9) && (1 <=? Z.of_N r + ey) && (Z.of_N r + ey <=? 9))%Z with true by (clear -Q; lia).
    cbn [option_map]. f_equal. unfold left_right. rewrite at_file, at_rank by (clear -Q; lia). f_equal. clear -Q H. lia.
  - replace ((1 <=? Z.of_N 10 - Z.of_N f + - ex) && (Z.of_N 10 - Z.of_N f + - ex <=? 9) && (1 <=? Z.of_N r + ey) && (Z.of_N r + ey <=? 9))%Z with false by (clear -Q; lia). reflexivity.
Qed.
Definition same_player (c : color) : color := c.
Lemma left_right_valid s : valid_square s -> valid_square (left_right s).
Proof. intros V. exact (proj1 (TLaws.c67_left_right_pf s V)). Qed.
Lemma left_right_twice s : valid_square s -> left_right (left_right s) = s.
Proof. intros V. exact (proj1 (proj2 (proj2 (TLaws.c67_left_right_pf s V)))). Qed.
Lemma reflecting : symmetry left_right same_player across.
Proof.
  split; auto using left_right_valid, left_right_twice.
  - intros c s d V. now apply reflected_step.
  - intros k d. destruct k; cbn [steps In app orthogonal diagonal like_gold]; intuition subst; cbn; auto 10.
  - intros k d. destruct k; cbn [slides In orthogonal diagonal]; intuition subst; cbn; auto 10.
  - intros c s V. now rewrite left_right_rank.
  - intros s t V Vt E. now rewrite !left_right_file, E.
Qed.
Lemma reflected_alike a : alike left_right same_player a (reflection a).
Proof.
  split; [reflexivity|]. split; [|reflexivity]. intros s V. cbn [reflection relabel a_board]. rewrite left_right_twice by auto. destruct (a_board a s) as [[k c]|]; reflexivity.
Qed.
Lemma reflected_piece p : valid_piece p -> piece_of (kind_of p) (same_player (color_of p)) = p.
Proof. intros V. now apply piece_of_parts. Qed.
Lemma reflected_move m : valid_move m -> carry left_right same_player m = reflect_move m.
Proof. destruct m as [f t pr|p t]; intros [V1 V2]; cbn [carry reflect_move relabel_move]; auto. now rewrite reflected_piece. Qed.
Lemma reflected_moves ms : Forall valid_move ms -> map (carry left_right same_player) ms = map reflect_move ms.
Proof. intros V. apply map_ext_in. intros m I. apply reflected_move. revert m I. now apply Forall_forall. Qed.
Lemma carried_reflected P x y : carried left_right P x y -> reflected P x y.
Proof. intros (b & b' & E & E' & _ & _ & H). exists b, b'. auto. Qed.
Lemma recolor_turned st : recolor opponent st = other_side st.
Proof. now destruct st. Qed.
Lemma recolor_same st : recolor same_player st = st.
Proof. now destruct st. Qed.
Lemma fresh_record P s a : reachable P s -> sees P s a -> fair_record P s a (arbitrary_position s).
Proof. intros R S. split; [reflexivity|]. split; [constructor|]. split; [reflexivity|]. split; [exact R|exact S]. Qed.
(** C77: turning the board round and exchanging the players changes nothing but names. A checker that reads the position by calls to the
    library and decides by the rules gives the same answer to a move and to the same move seen from the other side of the table, even the
    same error; the status names the other player, and the legal moves are the same seen from the other side. *)
Lemma c77_turned_answers_pf : forall P s t a m, reachable P s -> reachable P t -> sees P s a -> sees P t (mirror a) -> valid_move m -> let L := rules_checker P in
  (exists r, lc_is_legal_partial L s m = Ret r /\ lc_is_legal_partial L t (mirror_move m) = Ret r) /\
  (exists r, lc_is_legal_partial_lite L s m = Ret r /\ lc_is_legal_partial_lite L t (mirror_move m) = Ret r) /\
  calls_agree other_side (lc_status_partial L s) (lc_status_partial L t) /\
  lists_agree mirror_move (lc_all_legal_moves_partial L s) (lc_all_legal_moves_partial L t).
Proof.
  intros P s t a m R R' S S' V L. destruct (answers_sym _ _ _ P s t a _ m turning (turned_alike a) R R' S S' V) as (A & B & (st & C & C') & D).
  split; [exact A|]. split; [exact B|]. split; [|exact D]. exists st. split; [exact C|]. now rewrite <- recolor_turned.
Qed.
(** C77: the bitboards with which it answers are those of the other position flipped by the library. *)
Lemma c77_turned_boards_pf : forall P s t a from to p, reachable P s -> reachable P t -> sees P s a -> sees P t (mirror a) ->
  valid_square from -> valid_square to -> valid_piece p -> let L := rules_checker P in
  exists b1 b2 b3,
    (b <- lc_normal_from_candidates L s from;; bb_flip P b) = Ret b1 /\ lc_normal_from_candidates L t (mirror_square from) = Ret b1 /\
    (b <- lc_normal_to_candidates L s to p;; bb_flip P b) = Ret b2 /\ lc_normal_to_candidates L t (mirror_square to) (mirror_piece p) = Ret b2 /\
    (b <- lc_drop_candidates L s p;; bb_flip P b) = Ret b3 /\ lc_drop_candidates L t (mirror_piece p) = Ret b3.
Proof.
  intros P s t a from to p R R' S S' Vf Vt Vp L. destruct (boards_sym _ _ _ P s t a _ from to p turning (turned_alike a) R R' S S' Vf Vt Vp) as (A & B & C).
  apply turned_flip in A as (A & b1 & E1), B as (B & b2 & E2), C as (C & b3 & E3). exists b1, b2, b3. rewrite E1 in A. rewrite E2 in B. rewrite E3 in C. auto 10.
Qed.
(** C77: so are the attacks, the squares a piece can go to and the drops of pawns worked out on whole bitboards; and check is check. *)
Lemma c77_turned_attacks_pf : forall P s t a c from, reachable P s -> reachable P t -> sees P s a -> sees P t (mirror a) -> valid_square from ->
  (exists b, (b <- attack_set P s c;; bb_flip P b) = Ret b /\ attack_set P t (opponent c) = Ret b) /\
  in_check P t (opponent c) = in_check P s c /\
  (exists b, (b <- destinations P s from;; bb_flip P b) = Ret b /\ destinations P t (mirror_square from) = Ret b) /\
  (exists b, (b <- pawn_drops P s c;; bb_flip P b) = Ret b /\ pawn_drops P t (opponent c) = Ret b).
Proof.
  intros P s t a c from R R' S S' V. destruct (client_sym _ _ _ P s t a _ c from turning (turned_alike a) R R' S S' V) as (A & B & C & D).
  apply turned_flip in A as (A & b1 & E1), C as (C & b2 & E2), D as (D & b3 & E3). rewrite E1 in A. rewrite E2 in C. rewrite E3 in D. eauto 10.
Qed.
(** C77: a whole game. Two positions of which one is the other turned round, played by the same moves seen from either side through the
    checker that knows the rule of repetition, give the same answers and the same record, and the game stands as it does with the players
    exchanged. *)
Lemma c77_turned_game_pf : forall P p0 p0' s0 t0 a0 ms, created P p0 s0 -> created P p0' t0 -> sees P s0 a0 -> sees P t0 (mirror a0) -> few_pieces a0 -> Forall valid_move ms ->
  exists p p' rs st, lc_play P (full_checker P) p0 ms = Ret (p, rs) /\ lc_play P (full_checker P) p0' (map mirror_move ms) = Ret (p', rs) /\
    moves p' = map mirror_move (moves p) /\
    lc_status (full_checker P) p = Ret st /\ lc_status (full_checker P) p' = Ret (other_side st).
Proof.
  intros P p0 p0' s0 t0 a0 ms C C' S S' F V. apply created_facts in C as [R ->]. apply created_facts in C' as [R' ->]. apply few_iff in F.
  pose proof (few_sym _ _ _ _ _ turning (turned_alike a0) F) as F'.
  destruct (game_sym _ _ _ P s0 t0 a0 _ ms turning (turned_alike a0) R R' S S' F V (arbitrary_position s0) (arbitrary_position t0)) as (p & p' & rs & E & E' & Q & Q' & M);
    [now apply fresh_record|now apply fresh_record|reflexivity|].
  pose proof (record_status P s0 a0 p R S F Q) as St. pose proof (record_status P t0 _ p' R' S' F' Q') as St'. rewrite turned_move in *.
  exists p, p', rs. eexists. split; [exact E|]. split; [exact E'|]. split; [exact M|]. split; [exact St|].
  cbn [full_checker lc_status]. rewrite St', M. destruct Q as (_ & Vp & _). apply (f_equal Ret). rewrite <- recolor_turned, <- turned_move.
  apply (verdict_sym _ _ _ _ _ _ _ turning); [exact (after_all_sym _ _ _ _ _ _ turning (turned_alike a0) Vp)|exact (trail_sym _ _ _ _ _ _ [] [] turning (turned_alike a0) (Forall2_nil _) Vp)].
Qed.
(** C77: the same of the left-right reflection, which leaves the players as they are. The rules prefer no side of the board. *)
Lemma c77_reflected_answers_pf : forall P s t a m, reachable P s -> reachable P t -> sees P s a -> sees P t (reflection a) -> valid_move m -> let L := rules_checker P in
  (exists r, lc_is_legal_partial L s m = Ret r /\ lc_is_legal_partial L t (reflect_move m) = Ret r) /\
  (exists r, lc_is_legal_partial_lite L s m = Ret r /\ lc_is_legal_partial_lite L t (reflect_move m) = Ret r) /\
  calls_agree (fun st => st) (lc_status_partial L s) (lc_status_partial L t) /\
  lists_agree reflect_move (lc_all_legal_moves_partial L s) (lc_all_legal_moves_partial L t).
Proof.
  intros P s t a m R R' S S' V L. destruct (answers_sym _ _ _ P s t a _ m reflecting (reflected_alike a) R R' S S' V) as (A & B & (st & C & C') & (l & l' & D & D' & N & Q)).
  rewrite (reflected_move m V) in *. split; [exact A|]. split; [exact B|]. split.
  - exists st. split; [exact C|]. now rewrite recolor_same in C'.
  - exists l, l'. split; [exact D|]. split; [exact D'|]. split; [exact N|]. rewrite <- reflected_moves; [exact Q|]. apply Forall_forall. intros x I. revert D I.
    unfold rules_checker. cbn [lc_all_legal_moves_partial]. destruct (look P s) as [y| |]; [|discriminate..]. cbn [bind]. intros D I. apply ret_inj in D. subst l. apply filter_In in I as [I _]. eapply candidates_valid; eauto.
Qed.
(** C77: its bitboards are reflected. *)
Lemma c77_reflected_boards_pf : forall P s t a from to p c, reachable P s -> reachable P t -> sees P s a -> sees P t (reflection a) ->
  valid_square from -> valid_square to -> valid_piece p -> let L := rules_checker P in
  reflected P (lc_normal_from_candidates L s from) (lc_normal_from_candidates L t (left_right from)) /\
  reflected P (lc_normal_to_candidates L s to p) (lc_normal_to_candidates L t (left_right to) p) /\
  reflected P (lc_drop_candidates L s p) (lc_drop_candidates L t p) /\
  reflected P (attack_set P s c) (attack_set P t c) /\
  in_check P t c = in_check P s c /\
  reflected P (destinations P s from) (destinations P t (left_right from)) /\
  reflected P (pawn_drops P s c) (pawn_drops P t c).
Proof.
  intros P s t a from to p c R R' S S' Vf Vt Vp L. destruct (boards_sym _ _ _ P s t a _ from to p reflecting (reflected_alike a) R R' S S' Vf Vt Vp) as (A & B & C).
  destruct (client_sym _ _ _ P s t a _ c from reflecting (reflected_alike a) R R' S S' Vf) as (D & E & F & G). rewrite (reflected_piece p Vp) in *. unfold same_player in *.
  do 4 (split; [now apply carried_reflected|]). split; [exact E|]. split; now apply carried_reflected.
Qed.
(** C77: and whole games are. *)
Lemma c77_reflected_game_pf : forall P p0 p0' s0 t0 a0 ms, created P p0 s0 -> created P p0' t0 -> sees P s0 a0 -> sees P t0 (reflection a0) -> few_pieces a0 -> Forall valid_move ms ->
  exists p p' rs st, lc_play P (full_checker P) p0 ms = Ret (p, rs) /\ lc_play P (full_checker P) p0' (map reflect_move ms) = Ret (p', rs) /\
    moves p' = map reflect_move (moves p) /\
    lc_status (full_checker P) p = Ret st /\ lc_status (full_checker P) p' = Ret st.
Proof.
  intros P p0 p0' s0 t0 a0 ms C C' S S' F V. apply created_facts in C as [R ->]. apply created_facts in C' as [R' ->]. apply few_iff in F.
  pose proof (few_sym _ _ _ _ _ reflecting (reflected_alike a0) F) as F'.
  destruct (game_sym _ _ _ P s0 t0 a0 _ ms reflecting (reflected_alike a0) R R' S S' F V (arbitrary_position s0) (arbitrary_position t0)) as (p & p' & rs & E & E' & Q & Q' & M);
    [now apply fresh_record|now apply fresh_record|reflexivity|].
  pose proof (record_status P s0 a0 p R S F Q) as St. pose proof (record_status P t0 _ p' R' S' F' Q') as St'. rewrite (reflected_moves ms V) in E'.
  exists p, p', rs. eexists. split; [exact E|]. split; [exact E'|]. destruct Q as (_ & Vp & _). split; [now rewrite M, (reflected_moves _ Vp)|]. split; [exact St|].
  cbn [full_checker lc_status]. rewrite St', M. apply (f_equal Ret). match goal with |- _ = ?v => transitivity (recolor same_player v); [|apply recolor_same] end.
  apply (verdict_sym _ _ _ _ _ _ _ reflecting); [exact (after_all_sym _ _ _ _ _ _ reflecting (reflected_alike a0) Vp)|exact (trail_sym _ _ _ _ _ _ [] [] reflecting (reflected_alike a0) (Forall2_nil _) Vp)].
Qed.
