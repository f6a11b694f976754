(** Proofs of the property theorems on setting up positions and taking moves back (restated in Prop_Edit.v). *)
From Verif Require Export LRange TPosition TSfen.
(*PROPHEAD
Property theorems C51-C53: setting up positions, the range of SFEN, taking moves back
From Verif Require Import LSample.
*)

(** C51: from every reachable position, 85 edits set up every board, hands, side and nonzero ply; none is refused, the last
    move stays, and [king_position] names the king of every player who has exactly one. *)
Lemma c51_set_up_pf : forall P s r, reachable P s -> storable r -> f_ply r <> 0 ->
  exists os s', length os = 85%nat /\ forallb is_edit os = true /\ Forall valid_op os /\
    run_ops P s os = Ret (s', repeat true 85) /\ shows P s' r /\ last_move P s' = last_move P s /\
    (forall c sq, only_king (f_board r) c sq -> king_position P s' c = Ret (Some sq)) /\
    (forall c, no_king (f_board r) c -> king_position P s' c = king_position P s c).
Proof.
  intros P s r R S H. pose proof (reachable_wf P s R) as W. destruct (setup_run P s r W S H) as (s' & E & W' & A).
  pose proof (set_up_is r (abs s) H) as (U1 & U2 & U3 & U4 & U5 & U6).
  assert (L : length (setup_ops r) = 85%nat) by reflexivity.
  exists (setup_ops r), s'. split; auto. split; [reflexivity|]. split; [now apply setup_valid|]. rewrite L in E. split; auto.
  split; [eapply shows_sees; eauto|]. pose proof A as (_ & _ & _ & _ & A5 & A6). split; [|split].
  - rewrite !last_move_ok by auto. f_equal. change (last_at s') with (a_last (abs s')). now rewrite A5, U3.
  - intros c sq O. rewrite king_position_ok by auto. change (king_at s' c) with (a_king (abs s') c). rewrite A6. f_equal. now apply set_up_king.
  - intros c O. rewrite !king_position_ok by auto. change (king_at s' c) with (a_king (abs s') c). rewrite A6. f_equal.
    change (king_at s c) with (a_king (abs s) c). now apply set_up_king.
Qed.

(** C51: so every such setting is the content of a reachable position that was never played on. *)
Lemma c51_every_setting_pf : forall P r, storable r -> f_ply r <> 0 ->
  exists s, reachable P s /\ shows P s r /\ last_move P s = Ret None /\
    (forall c sq, only_king (f_board r) c sq -> king_position P s c = Ret (Some sq)) /\
    (forall c, no_king (f_board r) c -> king_position P s c = Ret None).
Proof.
  intros P r S H. destruct (c30_empty_pf P) as [R0 E0]. destruct (c51_set_up_pf P pp_empty r R0 S H) as (os & s & _ & _ & V & E & A & L & K1 & K2).
  exists s. split; [eapply reachable_run; eauto|]. split; auto. destruct E0 as (_ & _ & _ & _ & E5 & E6). split; [now rewrite L, E5|]. split; auto.
  intros c O. now rewrite K2, E6.
Qed.

(** C51: a ply of 0, which [ply_set] refuses, is within reach too, by a move from ply 65535. *)
Lemma c51_ply_zero_pf : forall P r, storable r -> exists s, reachable P s /\ shows P s r.
Proof.
  intros P r S. destruct (N.eq_dec (f_ply r) 0) as [Z|Z]; [|destruct (c51_every_setting_pf P r S Z) as (s & ? & ? & _); eauto].
  (* one move on ply 65535, then everything but the ply *)
  set (os := [OpPly 65535; OpMove (Normal (square_at 7 7) (square_at 7 6) false)] ++ puts (f_board r) squares ++
    [OpHand Black (mk_hand (f_hand r Black)); OpHand White (mk_hand (f_hand r White)); OpSide (f_side r)]).
  assert (V : Forall valid_op os).
  { unfold os. apply Forall_app. split.
    - repeat apply Forall_cons; try apply Forall_nil; cbn [valid_op]; [reflexivity|]. split; split; discriminate.
    - apply Forall_app. split; [apply puts_valid; intros; now apply In_squares|]. destruct S as [_ S].
      repeat apply Forall_cons; try apply Forall_nil; cbn [valid_op]; auto; apply mk_hand_valid; auto. }
  pose proof (do_ops_abs the_startpos a_opening os startpos_wf V abs_startpos) as [A _]. pose proof (do_ops_wf the_startpos os startpos_wf V) as W.
  assert (R : reachable P (fst (do_ops the_startpos os))).
  { exists the_startpos, os, (snd (do_ops the_startpos os)). split; [right; apply startpos_ok|]. split; auto. rewrite run_ops_ok by (auto; apply startpos_wf).
    now destruct (do_ops the_startpos os). }
  revert A W R. generalize (fst (do_ops the_startpos os)). intros s A W R. exists s. split; auto.
  unfold os in A. rewrite a_ops_app in A.
  assert (X : exists a1 bs, a_ops a_opening [OpPly 65535; OpMove (Normal (square_at 7 7) (square_at 7 6) false)] = (a1, bs) /\ a_ply a1 = 0).
  { eexists _, _. split; [reflexivity|]. reflexivity. }
  destruct X as (a1 & bs & E1 & P1). rewrite E1 in A. clear E1 os V. rewrite a_ops_app, a_ops_puts in A.
  destruct (put_all_same (f_board r) squares a1) as (_ & B2 & _ & _). 
  assert (B : forall sq, valid_square sq -> a_board (put_all (f_board r) squares a1) sq = f_board r sq).
  { intros sq V. apply put_all_board. left. now apply In_squares. }
  revert A B B2. generalize (put_all (f_board r) squares a1). intros x A B B2. cbn [a_ops a_op fst] in A.
  eapply shows_sees; eauto; cbn [a_set_side a_set_hands a_side a_ply a_board a_hand]; auto; [congruence|].
  intros c k K. destruct c; cbn [same_color]; now apply mk_hand_count.
Qed.

(** C53: an accepted move is taken back by editing: put back the pieces, the mover's hand, the side and the ply. No edit is
    refused and everything but the last move is as before, provided [king_position] was right about a king that moved and
    the ply was not 0 (which [ply_set] refuses). *)
Lemma c53_take_back_pf : forall P s a m s' h, reachable P s -> sees P s a -> valid_move m ->
  make_move P m s = Ret (s', Some tt) -> ply s <> 0 -> hand_of_a_player P s (side_to_move s) = Ret h ->
  (forall from to pr, m = Normal from to pr -> a_board a from = Some (King, a_side a) -> a_king a (a_side a) = Some from) ->
  exists s'' bs, run_ops P s' (take_back a m h) = Ret (s'', bs) /\ forallb (fun b => b) bs = true /\
    forallb is_edit (take_back a m h) = true /\ sees P s'' (but_last a m).
Proof.
  intros P s a m s' h R Hs V E Hp Hh RK. destruct (move_cases P s a m R Hs V) as (s1 & o & E1 & R1 & Q). rewrite E in E1. injection E1 as <- <-.
  destruct Q as (a' & Q & Hs'). pose proof (reachable_wf P s R) as W. pose proof (reachable_wf P s' R1) as W'.
  rewrite hand_of_a_player_ok in Hh by auto. injection Hh as <-. pose proof Hs as (S1 & S2 & _).
  assert (Hd : forall k, In k hand_kinds -> in_hand (hand_at s (side_to_move s)) k = a_hand a (a_side a) k).
  { intros k K. apply sees_iff in Hs; auto. destruct Hs as (_ & _ & _ & D & _). rewrite S1. apply (D (a_side a) k K). }
  assert (RK' : right_king a m) by (destruct m as [f t pr|p t]; cbn [right_king]; eauto; exact I).
  rewrite S2 in Hp. destruct (take_back_abs a m a' _ Q Hp RK' Hd) as [B A].
  assert (Vt : Forall valid_op (take_back a m (hand_at s (side_to_move s)))).
  { apply take_back_valid; auto; [now apply hand_at_valid|]. rewrite <- S2. apply (wf_ply s W). }
  apply sees_iff in Hs'; auto. destruct (do_ops_abs s' a' _ W' Vt Hs') as [C D]. pose proof (do_ops_wf s' _ W' Vt) as W''.
  rewrite run_ops_ok by auto. destruct (do_ops s' (take_back a m (hand_at s (side_to_move s)))) as [s'' bs]. cbn [fst snd] in *.
  exists s'', bs. split; auto. split; [|split].
  - subst bs. rewrite B. cbn [snd]. apply forallb_forall. intros b I. now apply repeat_spec in I.
  - now destruct m.
  - apply sees_iff; auto. eapply aeq_trans; [exact C|exact A].
Qed.

(** C53: in play the proviso on kings always holds. *)
Lemma c53_in_play_pf : forall P s a m s' h, played P s -> sees P s a -> valid_move m ->
  make_move P m s = Ret (s', Some tt) -> ply s <> 0 -> hand_of_a_player P s (side_to_move s) = Ret h ->
  exists s'' bs, run_ops P s' (take_back a m h) = Ret (s'', bs) /\ forallb (fun b => b) bs = true /\ sees P s'' (but_last a m).
Proof.
  intros P s a m s' h R Hs V E Hp Hh. destruct (c53_take_back_pf P s a m s' h) as (s'' & bs & A & B & _ & C); auto.
  - now apply played_reachable.
  - intros f t pr -> Bf. destruct (played_facts P s R) as (W & _ & K). apply sees_iff in Hs; auto. apply (kings_right_aeq _ _ Hs) in K.
    destruct (K (a_side a)) as [_ K2]. apply K2; auto. now destruct V.
  - eauto.
Qed.

(** C53: hence nothing is lost: two reachable positions with the same pieces on the squares of the move, from which the move leads to
    the same position, have the same side, ply, board and hands. *)
Lemma c53_determined_pf : forall P s1 s2 a1 a2 m s', reachable P s1 -> reachable P s2 -> sees P s1 a1 -> sees P s2 a2 -> valid_move m ->
  make_move P m s1 = Ret (s', Some tt) -> make_move P m s2 = Ret (s', Some tt) ->
  match m with Normal from to _ => a_board a1 from = a_board a2 from /\ a_board a1 to = a_board a2 to | Drop _ _ => True end ->
  a_side a1 = a_side a2 /\ a_ply a1 = a_ply a2 /\
  (forall sq, valid_square sq -> a_board a1 sq = a_board a2 sq) /\
  (forall c k, In k hand_kinds -> a_hand a1 c k = a_hand a2 c k).
Proof.
  intros P s1 s2 a1 a2 m s' R1 R2 H1 H2 V E1 E2 B.
  destruct (c23_effect_pf P s1 a1 m s' R1 H1 V E1) as (b1 & S1 & F1). destruct (c23_effect_pf P s2 a2 m s' R2 H2 V E2) as (b2 & S2 & F2).
  destruct (sees_unique P s' b1 b2 S1 S2) as (Q1 & Q2 & Q3 & Q4 & _ & _). destruct F1 as (X1 & X2 & _ & X4), F2 as (Y1 & Y2 & _ & Y4).
  pose proof (reachable_wf P s1 R1) as W1. pose proof (reachable_wf P s2 R2) as W2.
  assert (SD : a_side a1 = a_side a2). { rewrite X1, Y1 in Q1. destruct (a_side a1), (a_side a2); auto; discriminate. }
  assert (PL : a_ply a1 = a_ply a2).
  { rewrite X2, Y2 in Q2. destruct H1 as (_ & P1 & _), H2 as (_ & P2 & _). pose proof (wf_ply s1 W1). pose proof (wf_ply s2 W2). unfold ply in *.
    rewrite P1, P2 in *. lia. }
  assert (HB : forall c k, In k hand_kinds -> a_hand a1 c k < 256 /\ a_hand a2 c k < 256).
  { intros c k K. apply sees_iff in H1, H2; auto. destruct H1 as (_ & _ & _ & D1 & _), H2 as (_ & _ & _ & D2 & _). rewrite <- D1, <- D2 by auto.
    split; apply in_hand_lt, hand_at_valid; auto. }
  split; auto. split; auto. destruct m as [f t pr|p t].
  - destruct B as [Bf Bt]. destruct X4 as (NE & k & k' & _ & _ & _ & _ & Xo & Xh & _), Y4 as (_ & l & l' & _ & _ & _ & _ & Yo & Yh & _). split.
    + intros sq Vq. destruct (same_square_spec sq f) as [->|N1]; auto. destruct (same_square_spec sq t) as [->|N2]; auto.
      rewrite <- Xo, <- Yo by auto. now apply Q3.
    + intros c j K. specialize (Q4 c j K). specialize (HB c j K). rewrite Xh, Yh, <- Bt, <- SD in Q4. destruct (a_board a1 t) as [[e d]|]; auto.
      destruct (same_color c (a_side a1) && same_kind j (base_kind e)); auto. lia.
  - destruct X4 as (_ & Xo & Xh & _), Y4 as (_ & Yo & Yh & _).
    assert (M1 : makes_sense a1 (Drop p t)). { destruct (c22_accepts_pf P s1 a1 _ R1 H1 V) as (x & o & E & I). rewrite E1 in E. injection E as <- <-. now apply I. }
    assert (M2 : makes_sense a2 (Drop p t)). { destruct (c22_accepts_pf P s2 a2 _ R2 H2 V) as (x & o & E & I). rewrite E2 in E. injection E as <- <-. now apply I. }
    destruct M1 as (_ & _ & P1 & T1), M2 as (_ & _ & P2 & T2). split.
    + intros sq Vq. destruct (same_square_spec sq t) as [->|N2]; [congruence|]. rewrite <- Xo, <- Yo by auto. now apply Q3.
    + intros c j K. specialize (Q4 c j K). rewrite Xh, Yh, <- SD in Q4. rewrite <- SD in P2.
      destruct (same_color_spec c (a_side a1)) as [Ec|]; cbn [andb] in Q4; auto. destruct (same_kind_spec j (kind_of p)) as [Ek|]; auto.
      subst c. rewrite Ek in *. lia.
Qed.
(** ** The range of SFEN *)
Lemma no_space_piece x : ~ In 32 (piece_text x).
Proof. destruct x as [k c]. destruct k, c; vm_compute; intuition discriminate. Qed.
Lemma no_space_decimal n : ~ In 32 (decimal n).
Proof. destruct (decimal_canonical n) as (_ & F & _). intros I. rewrite Forall_forall in F. apply F in I. discriminate. Qed.
Lemma no_space_row r : forall v, ~ In 32 (row_text v r).
Proof.
  assert (V : forall v, ~ In 32 (vacancies v)) by (intros v; unfold vacancies; destruct (v =? 0); [easy|apply no_space_decimal]).
  induction r as [|[x|] r IH]; intros v; cbn [row_text]; auto. rewrite !in_app_iff. intros [I|[I|I]]; [now apply V in I|now apply no_space_piece in I|now apply IH in I].
Qed.
Lemma no_space_board b : ~ In 32 (board_text b).
Proof.
  unfold board_text. generalize ranks. intros l. assert (J : forall q, ~ In 32 (join (bytes "/") (map (fun r => row_text 0 (row b r)) (q :: l)))).
  { induction l as [|p l IH]; intros q; [apply no_space_row|].
    change (join (bytes "/") (map (fun r => row_text 0 (row b r)) (q :: p :: l))) with
      (row_text 0 (row b q) ++ bytes "/" ++ join (bytes "/") (map (fun r => row_text 0 (row b r)) (p :: l))).
    rewrite !in_app_iff. intros [I|[I|I]]; [now apply no_space_row in I|vm_compute in I; intuition discriminate|now apply IH in I]. }
  destruct l as [|p l]; [easy|]. intros I. apply (J p).
  change (join (bytes "/") (map (fun r => row_text 0 (row b r)) (p :: p :: l))) with
      (row_text 0 (row b p) ++ bytes "/" ++ join (bytes "/") (map (fun r => row_text 0 (row b r)) (p :: l))).
  rewrite !in_app_iff. auto.
Qed.
Lemma no_space_color c : ~ In 32 (color_text c).
Proof. destruct c; vm_compute; intuition discriminate. Qed.
Lemma no_space_hands h : ~ In 32 (hands_text h).
Proof.
  unfold hands_text. destruct (forallb _ _); [vm_compute; intuition discriminate|]. intros I. apply in_flat_map in I as ([c k] & _ & I).
  unfold hand_entry in I. destruct (_ =? 0); [easy|]. apply in_app_iff in I as [I|I]; [|now apply no_space_piece in I].
  destruct (_ =? 1); [easy|now apply no_space_decimal in I].
Qed.
Lemma forward_tail o : forall c l, forward o (c :: l) = true -> forward o l = true.
Proof.
  induction o as [|x o IH]; intros c l; [discriminate|]. cbn [forward]. destruct (c =? x); intros H.
  - destruct l as [|d l]; [reflexivity|]. destruct (d =? x); auto. now apply IH in H.
  - apply IH in H. destruct l as [|d l]; [reflexivity|]. destruct (d =? x); auto. now apply IH in H.
Qed.
Lemma forward_skip o x l : forward o l = true -> forward (x :: o) l = true.
Proof. destruct l as [|c l]; [reflexivity|]. cbn [forward]. destruct (c =? x); auto. apply forward_tail. Qed.
Lemma digits_letters t : Forall (fun c => is_digit c = true) t -> letters t = [].
Proof. induction 1 as [|c t D F IH]; auto. unfold letters in *. cbn [filter]. now rewrite D. Qed.
Lemma letters_app t u : letters (t ++ u) = letters t ++ letters u.
Proof. apply filter_app. Qed.
Lemma entries_forward h : forall l, (forall c k, In (c, k) l -> In k hand_kinds) -> forward (map letter l) (letters (flat_map (hand_entry h) l)) = true.
Proof.
  induction l as [|[c k] l IH]; intros K; [reflexivity|]. cbn [map flat_map]. specialize (IH (fun c k I => K c k (or_intror I))).
  unfold hand_entry at 1. cbn [fst snd]. destruct (h c k =? 0); [now apply forward_skip|].
  destruct (hand_letter c k (K c k (or_introl eq_refl))) as [T R]. apply letter_not_space in R as (_ & _ & _ & D). rewrite !letters_app, T.
  replace (letters (if h c k =? 1 then [] else decimal (h c k))) with (@nil N).
  - unfold letters at 1. cbn [filter]. rewrite D. cbn [negb app forward]. now rewrite N.eqb_refl.
  - symmetry. destruct (h c k =? 1); [reflexivity|]. apply digits_letters. now destruct (decimal_canonical (h c k)) as (_ & F & _).
Qed.
Lemma hands_in_order h : in_order (hands_text h).
Proof.
  destruct (hands_text_order h) as [[E _]|[E (c & k & K & NZ)]]; [now left|right]. rewrite E. split.
  - intros Z. assert (I : In (letter (c, k)) (flat_map (hand_entry h) hand_order)); [|rewrite Z in I; destruct I].
    apply in_flat_map. exists (c, k). split; [now apply (hand_order_kinds c)|]. unfold hand_entry. cbn [fst snd]. apply N.eqb_neq in NZ. rewrite NZ.
    apply in_app_iff. right. destruct (hand_letter c k K) as [-> _]. now left.
  - rewrite letter_order. apply entries_forward. intros d l I. now apply (hand_order_kinds d).
Qed.
Lemma shows_text P s r : reachable P s -> shows P s r ->
  to_sfen_owned P s = Ret (board_text (f_board r) ++ [32] ++ color_text (f_side r) ++ [32] ++ hands_text (f_hand r) ++ [32] ++ decimal (f_ply r)).
Proof.
  intros R (A & B & C & D). pose proof (reachable_wf P s R) as W. pose proof (sees_abs P s W) as S. destruct (c33_text_pf P s (abs s) R S) as (_ & O & _).
  rewrite O. f_equal. set (b := APos (f_side r) (f_ply r) (f_board r) (f_hand r) None (fun _ => None)).
  change (board_text (f_board r) ++ [32] ++ color_text (f_side r) ++ [32] ++ hands_text (f_hand r) ++ [32] ++ decimal (f_ply r)) with (sfen_text b).
  apply sfen_text_agree; auto.
  - intros sq V. destruct S as (_ & _ & S & _). specialize (S sq V). rewrite C in S by auto. cbn [b a_board].
    destruct (a_board (abs s) sq), (f_board r sq); cbn [option_map] in S; try discriminate; auto.
    f_equal. apply the_piece_inj. congruence.
  - intros c k K. specialize (D c k K). rewrite pp_hand_ok in D by (auto; apply piece_of_valid). rewrite kind_of_of, color_of_of in D.
    apply is_hand_piece_ok in K. rewrite K in D. injection D as D. exact D.
Qed.
Lemma shown_storable P s : reachable P s -> exists r, read_sfen (sfen_text (abs s)) = Some r /\ storable r.
Proof.
  intros R. pose proof (reachable_wf P s R) as W. destruct (read_sfen_text (abs s)) as (r & E & A & B & C & D). exists r. split; auto. split.
  - rewrite B. apply (wf_ply s W).
  - intros c k K. rewrite D by auto. apply in_hand_lt, hand_at_valid, W.
Qed.
(** C52: every SFEN text with storable numbers is the SFEN of some reachable position, up to the order of the pieces in hand. *)
Lemma c52_every_text_pf : forall P t r, read_sfen t = Some r -> storable r ->
  exists s t' b c h h' n, reachable P s /\ shows P s r /\ to_sfen_owned P s = Ret t' /\ fields t b c h n /\ fields t' b c h' n.
Proof.
  intros P t r E S. destruct (c51_ply_zero_pf P r S) as (s & R & H). destruct (read_sfen_inv t r E) as (field & T & NI & _).
  exists s. eexists. exists (board_text (f_board r)), (color_text (f_side r)), field, (hands_text (f_hand r)), (decimal (f_ply r)).
  split; auto. split; auto. split; [exact (shows_text P s r R H)|].
  split; (split; [auto|]); repeat split; auto using no_space_board, no_space_color, no_space_hands, no_space_decimal.
Qed.
Lemma fields_unique t b c h n b' c' h' n' : fields t b c h n -> fields t b' c' h' n' -> b = b' /\ c = c' /\ h = h' /\ n = n'.
Proof.
  assert (X : forall a x a' x', ~ In 32 a -> ~ In 32 a' -> a ++ 32 :: x = a' ++ 32 :: x' -> a = a' /\ x = x').
  { induction a as [|y a IH]; intros x [|y' a'] x' N1 N2 E; cbn [app] in E.
    - now injection E.
    - injection E as <- E. destruct N2. now left.
    - injection E as -> E. destruct N1. now left.
    - injection E as <- E. destruct (IH x a' x') as [-> ->]; auto; intros I; [apply N1|apply N2]; now right. }
  intros (E & A1 & A2 & A3 & A4) (E' & B1 & B2 & B3 & B4). rewrite E in E'. cbn [app] in E'.
  apply X in E' as [-> E']; auto. apply X in E' as [-> E']; auto.
Qed.
(** C52: the texts written by [to_sfen] are exactly those: accepted by the reader, with storable numbers, hands in order. *)
Lemma c52_range_pf : forall P t, (exists s, reachable P s /\ to_sfen_owned P s = Ret t) <->
  (exists r b c h n, read_sfen t = Some r /\ storable r /\ fields t b c h n /\ in_order h).
Proof.
  intros P t. split.
  - intros (s & R & O). pose proof (reachable_wf P s R) as W. destruct (c33_text_pf P s (abs s) R (sees_abs P s W)) as (_ & O' & _). rewrite O in O'. injection O' as ->.
    destruct (shown_storable P s R) as (r & E & S). exists r, (board_text (a_board (abs s))), (color_text (a_side (abs s))), (hands_text (a_hand (abs s))), (decimal (a_ply (abs s))).
    split; auto. split; auto. split; [|apply hands_in_order]. split; [reflexivity|]. repeat split; auto using no_space_board, no_space_color, no_space_hands, no_space_decimal.
  - intros (r & b & c & h & n & E & S & F & O). destruct (c51_ply_zero_pf P r S) as (s & R & H). exists s. split; auto.
    destruct (read_sfen_inv t r E) as (field & T & NI & X).
    assert (F' : fields t (board_text (f_board r)) (color_text (f_side r)) field (decimal (f_ply r))).
    { split; [exact T|]. repeat split; auto using no_space_board, no_space_color, no_space_decimal. }
    destruct (fields_unique _ _ _ _ _ _ _ _ _ F F') as (-> & -> & -> & ->). rewrite (shows_text P s r R H), <- (X O). now f_equal.
Qed.
