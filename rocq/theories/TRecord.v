(** Game records as USI text. *)
From Verif Require Export SpecRecord.
From Verif Require Import LBase LPiece LHand LAbstract LPosition LRefine LExt LWriter LSfen LRead LRange LEdit TPosition TGame TSfen TEdit.
Local Opaque run_ops.

(*PROPHEAD
Property theorems C78: game records as USI text
From Verif Require Import SpecSfen SpecEdit LPiece LSample LRefine.
*)

(** ** Cutting at blanks *)
Notation blank := (bytes " ").
Lemma cut_word w : forall cur x, ~ In 32 w -> cut_from cur (w ++ 32 :: x) = (cur ++ w) :: cut_from [] x.
Proof.
  induction w as [|c w IH]; intros cur x N; cbn [app cut_from].
  - now rewrite N.eqb_refl, app_nil_r.
  - destruct (N.eqb_spec c 32) as [->|Nc]; [destruct N; now left|]. rewrite IH by (intros I; apply N; now right). now rewrite <- app_assoc.
Qed.
Lemma cut_last w : forall cur, ~ In 32 w -> cut_from cur w = [cur ++ w].
Proof.
  induction w as [|c w IH]; intros cur N; cbn [cut_from]; [now rewrite app_nil_r|].
  destruct (N.eqb_spec c 32) as [->|Nc]; [destruct N; now left|]. rewrite IH by (intros I; apply N; now right). now rewrite <- app_assoc.
Qed.
Lemma cut_join ws : ws <> [] -> Forall (fun w => ~ In 32 w) ws -> cut (join blank ws) = ws.
Proof.
  intros NE F. unfold cut. induction F as [|w ws N F IH]; [easy|]. destruct ws as [|v ws].
  - cbn [join]. now rewrite cut_last.
  - change (join blank (w :: v :: ws)) with (w ++ 32 :: join blank (v :: ws)). rewrite cut_word by auto. rewrite IH by easy. reflexivity.
Qed.
Lemma join_cut t : forall cur, join blank (cut_from cur t) = cur ++ t.
Proof.
  induction t as [|c t IH]; intros cur; cbn [cut_from]; [cbn [join]; now rewrite app_nil_r|].
  destruct (N.eqb_spec c 32) as [->|Nc]; [|rewrite IH; now rewrite <- app_assoc].
  specialize (IH []). destruct (cut_from [] t) as [|v vs] eqn:E.
  - exfalso. clear IH. revert E. generalize (@nil N). induction t as [|d t IHt]; intros x; cbn [cut_from]; [discriminate|]. destruct (d =? 32); [discriminate|apply IHt].
  - change (join blank (cur :: v :: vs)) with (cur ++ 32 :: join blank (v :: vs)). now rewrite IH.
Qed.
Lemma cut_no_blank t : forall cur, ~ In 32 cur -> Forall (fun w => ~ In 32 w) (cut_from cur t).
Proof.
  induction t as [|c t IH]; intros cur N; cbn [cut_from]; [now repeat constructor|].
  destruct (N.eqb_spec c 32) as [->|Nc]; [constructor; [exact N|now apply IH]|]. apply IH. rewrite in_app_iff. intros [I|[I|[]]]; auto.
Qed.
Lemma word_eq w v : list_eqb N.eqb w v = true <-> w = v.
Proof.
  revert v. induction w as [|a w IH]; intros [|b v]; cbn [list_eqb]; split; try easy.
  - rewrite andb_true_iff, N.eqb_eq, IH. now intros [-> ->].
  - intros [= -> ->]. rewrite andb_true_iff, N.eqb_eq, IH. auto.
Qed.
Lemma join_flat l : forall a, l <> [] -> join blank (a ++ l) = match a with [] => join blank l | _ => join blank a ++ 32 :: join blank l end.
Proof.
  intros a H. induction a as [|x a IH]; auto. destruct a as [|y a].
  - destruct l; easy.
  - change (join blank ((x :: y :: a) ++ l)) with (x ++ 32 :: join blank ((y :: a) ++ l)). rewrite IH.
    change (join blank (x :: y :: a)) with (x ++ 32 :: join blank (y :: a)). now rewrite <- app_assoc.
Qed.
Lemma join_nested x ws l : ws <> [] -> join blank (x :: join blank ws :: l) = join blank (x :: ws ++ l).
Proof.
  intros H. change (join blank (x :: join blank ws :: l)) with (x ++ 32 :: join blank (join blank ws :: l)).
  destruct ws as [|w ws]; [easy|]. change (join blank (x :: (w :: ws) ++ l)) with (x ++ 32 :: join blank ((w :: ws) ++ l)). do 2 f_equal.
  destruct l as [|y l]; [now rewrite app_nil_r|]. rewrite join_flat by easy. reflexivity.
Qed.

(** ** Hands *)
Lemma add_times_ok P k n : In k hand_kinds -> forall h, valid_hand h -> in_hand h k + N.of_nat n < 256 ->
  exists h', add_times P n k h = Ret h' /\ valid_hand h' /\ in_hand h' k = in_hand h k + N.of_nat n /\ forall j, j <> k -> in_hand h' j = in_hand h j.
Proof.
  intros K. induction n as [|n IH]; intros h V L.
  - exists h. cbn [add_times]. repeat split; auto; try apply V. lia.
  - cbn [add_times]. rewrite hand_added_ok by auto. pose proof K as K'. apply is_hand_piece_ok in K'. rewrite K'. cbn [bind].
    rewrite N.mod_small by lia. pose proof (in_hand_put_same h k (in_hand h k + 1) V K) as S.
    destruct (IH (hand_put h k (in_hand h k + 1))) as (h' & E & V' & A & B); [apply hand_put_valid; auto; lia|rewrite S; lia|].
    exists h'. split; auto. split; auto. rewrite S in A. split; [lia|]. intros j N. rewrite B by auto. apply in_hand_put_other. congruence.
Qed.
Lemma fill_ok P f ks : NoDup ks -> (forall k, In k ks -> In k hand_kinds) -> forall h, valid_hand h -> (forall k, In k ks -> in_hand h k + f k < 256) ->
  exists h', fill P f ks h = Ret h' /\ valid_hand h' /\ (forall k, In k ks -> in_hand h' k = in_hand h k + f k) /\ forall j, ~ In j ks -> in_hand h' j = in_hand h j.
Proof.
  induction ks as [|k ks IH]; intros ND S h V L.
  - exists h. split; auto. split; auto. split; [intros ? []|auto].
  - inversion ND as [|? ? NI ND']; subst. cbn [fill].
    destruct (add_times_ok P k (N.to_nat (f k)) (S k (or_introl eq_refl)) h V) as (h1 & E & V1 & A & B); [rewrite N2Nat.id; apply L; now left|].
    rewrite E. cbn [bind]. rewrite N2Nat.id in A. destruct (IH ND' (fun j I => S j (or_intror I)) h1 V1) as (h2 & E2 & V2 & A2 & B2).
    { intros j I. rewrite B by (intros ->; contradiction). apply L. now right. }
    exists h2. split; auto. split; auto. split.
    + intros j [<-|I]; [rewrite B2 by auto; exact A|]. rewrite A2 by auto. rewrite B; [auto|intros ->; contradiction].
    + intros j N. rewrite B2 by (intros I; apply N; now right). apply B. intros ->. apply N. now left.
Qed.
Lemma fill_is P f : (forall k, In k hand_kinds -> f k < 256) -> fill P f hand_kinds hand_new = Ret (mk_hand f).
Proof.
  intros L. destruct (fill_ok P f hand_kinds) with (h := hand_new) as (h & E & V & A & _); auto.
  - repeat constructor; cbn; intuition discriminate.
  - split; [reflexivity|]. split; [|reflexivity]. unfold hand_new, hand_default. cbn [hand_bytes]. apply Forall_forall. intros x I. apply repeat_spec in I. subst. reflexivity.
  - intros k I. replace (in_hand hand_new k) with 0 by (destruct k; reflexivity). now apply L.
  - rewrite E. f_equal. apply hand_ext; auto using mk_hand_valid. intros k I. rewrite A, mk_hand_count by auto. now replace (in_hand hand_new k) with 0 by (destruct k; reflexivity).
Qed.

(** ** Initial positions *)
Lemma fits_iff r : fits r = true <-> storable r.
Proof.
  unfold fits, storable. rewrite andb_true_iff, N.ltb_lt, forallb_forall. split; intros [A B]; (split; [exact A|]).
  - intros c k K. specialize (B k K). apply andb_true_iff in B as [B1 B2]. apply N.ltb_lt in B1, B2. now destruct c.
  - intros k K. rewrite andb_true_iff, !N.ltb_lt. auto.
Qed.
Lemma put_up_is P r : storable r ->
  put_up P r = ('(s, oks) <- run_ops P pp_empty (setup_ops r);; Ret (if forallb (fun b => b) oks then Some s else None)).
Proof. intros [_ S]. unfold put_up. rewrite !fill_is by (intros; now apply S). reflexivity. Qed.
Lemma all_true n : forallb (fun b : bool => b) (repeat true n) = true.
Proof. induction n; auto. Qed.
Lemma put_up_ok P r : storable r -> f_ply r <> 0 ->
  exists s, put_up P r = Ret (Some s) /\ reachable P s /\ aeq (abs s) (set_up r (abs pp_empty)).
Proof.
  intros S H. rewrite put_up_is by auto. destruct (setup_run P pp_empty r pp_empty_wf S H) as (s & E & W & A). exists s. rewrite E. cbn [bind].
  rewrite all_true. split; auto. split; auto. exists pp_empty, (setup_ops r). eexists. split; [now left|]. split; [now apply setup_valid|exact E].
Qed.
Lemma put_up_zero P r : storable r -> f_ply r = 0 -> put_up P r = Ret None.
Proof.
  intros S H. rewrite put_up_is by auto. pose proof (setup_valid r S) as V. rewrite run_ops_ok by auto using pp_empty_wf.
  destruct (do_ops_abs pp_empty (abs pp_empty) (setup_ops r) pp_empty_wf V (aeq_refl _)) as [_ B].
  destruct (do_ops pp_empty (setup_ops r)) as [s oks]. cbn [bind snd] in *. subst oks. unfold setup_ops. rewrite a_ops_app, a_ops_puts. cbn [a_ops a_op].
  rewrite H. rewrite N.eqb_refl. cbn beta iota. unfold snd. rewrite forallb_app. cbn [forallb]. now rewrite andb_false_r.
Qed.
(** two readings that agree set up the same *)
Definition agree (r r' : sfen) : Prop :=
  f_side r = f_side r' /\ f_ply r = f_ply r' /\ (forall sq, valid_square sq -> f_board r sq = f_board r' sq) /\
  (forall c k, In k hand_kinds -> f_hand r c k = f_hand r' c k).
Lemma agree_ops r r' : agree r r' -> setup_ops r = setup_ops r'.
Proof.
  intros (A & B & C & D). unfold setup_ops. rewrite A, B. replace (puts (f_board r) squares) with (puts (f_board r') squares).
  - unfold mk_hand. rewrite !D by (cbn; tauto). reflexivity.
  - unfold puts. apply map_ext_in. intros sq I. rewrite C; auto. now apply In_squares.
Qed.
Lemma agree_storable r r' : agree r r' -> storable r -> storable r'.
Proof. intros (_ & B & _ & D) [S1 S2]. split; [now rewrite <- B|]. intros c k K. rewrite <- D; auto. Qed.
Lemma agree_put_up P r r' : agree r r' -> storable r -> put_up P r = put_up P r'.
Proof. intros A S. rewrite !put_up_is by (auto; eapply agree_storable; eauto). now rewrite (agree_ops r r'). Qed.
(** what is read of the text of [s] *)
Lemma read_own P s : reachable P s -> exists r, to_sfen_owned P s = Ret (sfen_text (abs s)) /\ read_sfen (sfen_text (abs s)) = Some r /\ storable r /\
  f_side r = a_side (abs s) /\ f_ply r = a_ply (abs s) /\ (forall sq, valid_square sq -> f_board r sq = a_board (abs s) sq) /\
  (forall c k, In k hand_kinds -> f_hand r c k = a_hand (abs s) c k).
Proof.
  intros R. pose proof (reachable_wf P s R) as W. destruct (c33_text_pf P s (abs s) R (sees_abs P s W)) as (_ & O & _).
  destruct (read_sfen_text (abs s)) as (r & E & A & B & C & D). destruct (shown_storable P s R) as (r' & E' & S). rewrite E in E'. injection E' as <-.
  exists r. do 6 (split; [assumption|]). assumption.
Qed.
Lemma set_up_own s a r : aeq (abs s) a -> writes_down a ->
  f_side r = a_side (abs s) -> f_ply r = a_ply (abs s) -> (forall sq, valid_square sq -> f_board r sq = a_board (abs s) sq) ->
  (forall c k, In k hand_kinds -> f_hand r c k = a_hand (abs s) c k) -> f_ply r <> 0 /\ aeq (abs s) (set_up r (abs pp_empty)).
Proof.
  intros Q (NZ & L & K) A B C D. destruct Q as (Q1 & Q2 & Q3 & Q4 & Q5 & Q6). assert (H : f_ply r <> 0) by (rewrite B, Q2; exact NZ). split; [exact H|].
  pose proof abs_empty as (_ & _ & _ & _ & E5 & E6).
  destruct (set_up_is r (abs pp_empty) H) as (X1 & X2 & X3 & X4 & X5 & _). split; [now rewrite X1|]. split; [now rewrite X2|].
  split; [intros sq V; now rewrite X4, C|]. split; [intros c k I; now rewrite X5, D|]. split.
  - rewrite X3, E5, Q5, L. reflexivity.
  - intros c. rewrite Q6. destruct (set_up_king r (abs pp_empty) c H) as [U1 U2]. destruct (K c) as [(sq & O & ->)|[O ->]].
    + symmetry. apply U1. destruct O as [V O]. split; auto. intros t Vt. rewrite C, Q3 by auto. auto.
    + rewrite U2; [now rewrite E6|]. intros t Vt. rewrite C, Q3 by auto. auto.
Qed.

(** ** Moves *)
Definition told (c : color) (u : usi_move) : move := match u with UNormal f t pr => Normal f t pr | UDrop k t => Drop (piece_of k c) t end.
Lemma as_move_is P c u : as_move P c u = Ret (told c u).
Proof. destruct u; cbn [as_move told]; auto. now rewrite piece_new_ok. Qed.
Lemma as_usi_told c u : as_usi (told c u) = u.
Proof. destruct u; cbn [told as_usi]; auto. now rewrite kind_of_of. Qed.
Lemma read_square_valid t s : read_square t = Some s -> valid_square s.
Proof.
  destruct t as [|f [|r [|]]]; try discriminate. cbn [read_square]. destruct (_ && _) eqn:E; [|discriminate].
  rewrite !andb_true_iff, !N.leb_le in E. intros [= <-]. unfold valid_square, square_at. cbn [sq_repr]. lia.
Qed.
Lemma read_move_valid w u c : read_move w = Some u -> valid_move (told c u).
Proof.
  assert (D : forall x t, match read_piece x, read_square t with Some (k, Black), Some to => Some (UDrop k to) | _, _ => None end = Some u -> valid_move (told c u)).
  { intros x t. destruct (read_piece x) as [[k []]|]; try discriminate; destruct (read_square t) eqn:E; try discriminate. intros [= <-].
    split; [apply piece_of_valid|eapply read_square_valid; eauto]. }
  assert (M : forall s t pr, match read_square s, read_square t with Some from, Some to => Some (UNormal from to pr) | _, _ => None end = Some u -> valid_move (told c u)).
  { intros s t pr. destruct (read_square s) eqn:E1; try discriminate; destruct (read_square t) eqn:E2; try discriminate. intros [= <-]. split; eapply read_square_valid; eauto. }
  unfold read_move. intros H.
  repeat match type of H with
  | match read_piece _ with _ => _ end = _ => exact (D _ _ H)
  | match read_square _ with _ => _ end = _ => exact (M _ _ _ H)
  | match ?x with _ => _ end = _ => destruct x; try discriminate H
  end.
Qed.
Lemma pos_make_ok P p m : wf (pos_inner p) -> valid_move m ->
  pos_make_move P p m = Ret (match do_move (pos_inner p) m with Some s => (Position (pos_initial p) s (pos_moves p ++ [m]), Some tt) | None => (p, None) end).
Proof. intros W V. unfold pos_make_move. rewrite make_move_ok by auto. cbn [bind]. destruct p as [i s l]. cbn [pos_inner pos_initial pos_moves]. now destruct (do_move s m). Qed.
(** an accepted drop is of the side to move *)
Lemma told_back s m s' : wf s -> valid_move m -> do_move s m = Some s' -> told (side_to_move s) (as_usi m) = m.
Proof.
  intros W V E. pose proof (do_move_abs s m W V) as H. rewrite E in H. destruct m as [f t pr|x t]; auto. cbn [as_usi told].
  destruct (a_move (abs s) (Drop x t)) as [a|] eqn:M; [|contradiction]. cbn [a_move] in M. destruct (same_color_spec (color_of x) (a_side (abs s))) as [C|]; [|discriminate].
  change (side_to_move s) with (a_side (abs s)). rewrite <- C, piece_of_parts by apply V. reflexivity.
Qed.
Lemma play_total P ws : forall p, wf (pos_inner p) -> exists o, play_texts P p ws = Ret o.
Proof.
  induction ws as [|w ws IH]; intros p W; cbn [play_texts]; [eauto|]. destruct (read_move w) as [u|] eqn:E; [|eauto]. rewrite as_move_is. cbn [bind].
  pose proof (read_move_valid w u (side_to_move (inner p)) E) as V. rewrite pos_make_ok by auto. cbn [bind].
  destruct (do_move (pos_inner p) (told (side_to_move (inner p)) u)) as [s|] eqn:D; [|eauto]. apply IH. cbn [pos_inner]. eapply do_move_wf; eauto.
Qed.
Lemma play_iff P ws : forall p q, wf (pos_inner p) -> play_texts P p ws = Ret (Some q) <-> exists ms, tell ws ms /\ plays P p ms q.
Proof.
  unfold tell, plays. induction ws as [|w ws IH]; intros p q W; cbn [play_texts].
  - split.
    + intros [= <-]. exists []. split; [constructor|reflexivity].
    + intros (ms & T & E). inversion T; subst. injection E as <-. reflexivity.
  - split.
    + destruct (read_move w) as [u|] eqn:R; [|discriminate]. rewrite as_move_is. cbn [bind]. pose proof (read_move_valid w u (side_to_move (inner p)) R) as V.
      rewrite pos_make_ok by auto. cbn [bind]. destruct (do_move (pos_inner p) (told (side_to_move (inner p)) u)) as [s|] eqn:D; [|discriminate]. intros H.
      apply IH in H as (ms & T & E); [|cbn [pos_inner]; eapply do_move_wf; eauto]. exists (told (side_to_move (inner p)) u :: ms). split.
      * constructor; auto. split; auto. now rewrite as_usi_told.
      * cbn [map pos_run length repeat]. rewrite pos_make_ok, D by auto. cbn [bind]. rewrite E. reflexivity.
    + intros (ms & T & E). inversion T as [|? m ? ms' [R V] T' E1 E2]; subst. rewrite R, as_move_is. cbn [bind].
      cbn [map pos_run length repeat] in E. rewrite pos_make_ok in E by auto. destruct (do_move (pos_inner p) m) as [s|] eqn:D.
      * change (side_to_move (inner p)) with (side_to_move (pos_inner p)). rewrite (told_back _ _ _ W V D), pos_make_ok, D by auto. cbn [bind].
        apply IH; [cbn [pos_inner]; eapply do_move_wf; eauto|]. exists ms'. split; auto. cbn [bind is_some] in E.
        destruct (pos_run P _ (map PMove ms')) as [[q' bs]| |]; try discriminate. cbn [bind] in E. now injection E as <- <-.
      * cbn [bind is_some] in E. destruct (pos_run P p (map PMove ms')) as [[q' bs]| |]; discriminate.
Qed.
(** the texts of moves *)
Lemma moves_texts_ok P ms : Forall valid_move ms -> moves_texts P ms = Ret (map move_text ms).
Proof. induction 1 as [|m ms V F IH]; auto. cbn [moves_texts map]. rewrite (owned P (fun W K => move_to_usi P K m) _ (prints_move P m V)). cbn [bind]. now rewrite IH. Qed.
Lemma tell_texts ms : Forall valid_move ms -> tell (map move_text ms) ms.
Proof. induction 1 as [|m ms V F IH]; constructor; auto. split; auto. now apply read_move_text. Qed.
Lemma no_space_square sq : ~ In 32 (square_text sq).
Proof. cbn. pose proof (N.le_0_l (file_of sq)). intros [I|[I|[]]]; lia. Qed.
Lemma no_space_kind k : ~ In 32 (kind_text k).
Proof. destruct k; vm_compute; intuition discriminate. Qed.
Lemma no_space_move m : ~ In 32 (move_text m).
Proof.
  destruct m as [f t pr|x t]; cbn [move_text]; rewrite !in_app_iff; intros [I|[I|I]]; try (now apply no_space_square in I); try (now apply no_space_kind in I).
  - destruct pr; [destruct I as [I|[]]; discriminate|easy].
  - destruct I as [I|[]]; discriminate.
Qed.

(** ** Whole records *)
Definition tail_of (ws : list (list N)) : list (list N) := match ws with [] => [] | _ => bytes "moves" :: ws end.
Lemma read_tail P p ws : read_moves P p (tail_of ws) = play_texts P p ws.
Proof. now destruct ws. Qed.
Lemma tail_no_blank ws : Forall (fun w => ~ In 32 w) ws -> Forall (fun w => ~ In 32 w) (tail_of ws).
Proof. intros F. destruct ws; auto. constructor; auto. vm_compute. intuition discriminate. Qed.
Lemma sfen_fields a : sfen_text a = join blank [board_text (a_board a); color_text (a_side a); hands_text (a_hand a); decimal (a_ply a)].
Proof. reflexivity. Qed.
Lemma read_sfen_line P a r ws : read_sfen (sfen_text a) = Some r -> storable r -> Forall (fun w => ~ In 32 w) ws ->
  read_record P (with_moves [bytes "sfen"; sfen_text a] ws) = (o <- put_up P r;; match o with Some s => play_texts P (arbitrary_position s) ws | None => Ret None end).
Proof.
  intros E S F. unfold with_moves. fold (tail_of ws). rewrite sfen_fields in *. cbn [app]. rewrite join_nested by easy. cbn [app]. unfold read_record.
  rewrite cut_join; [|easy|].
  - replace (list_eqb N.eqb (bytes "sfen") (bytes "startpos")) with false by reflexivity. replace (list_eqb N.eqb (bytes "sfen") (bytes "sfen")) with true by reflexivity.
    rewrite E. apply fits_iff in S. rewrite S. destruct (put_up P r) as [[s|]| |]; auto. cbn [bind]. apply read_tail.
  - constructor; [vm_compute; intuition discriminate|]. repeat constructor; auto using no_space_board, no_space_color, no_space_hands, no_space_decimal, tail_no_blank.
Qed.
Lemma read_startpos_line P ws : Forall (fun w => ~ In 32 w) ws ->
  read_record P (with_moves [bytes "startpos"] ws) = play_texts P (arbitrary_position the_startpos) ws.
Proof.
  intros F. unfold with_moves. fold (tail_of ws). cbn [app]. unfold read_record. rewrite cut_join; [|easy|].
  - replace (list_eqb N.eqb (bytes "startpos") (bytes "startpos")) with true by reflexivity. unfold pos_startpos. rewrite startpos_ok. cbn [bind]. apply read_tail.
  - constructor; [vm_compute; intuition discriminate|now apply tail_no_blank].
Qed.
(** an initial position the text keeps is put up again *)
Lemma put_up_own P s a : reachable P s -> sees P s a -> writes_down a ->
  exists r, to_sfen_owned P s = Ret (sfen_text (abs s)) /\ read_sfen (sfen_text (abs s)) = Some r /\ storable r /\ put_up P r = Ret (Some s).
Proof.
  intros R S H. pose proof (reachable_wf P s R) as W. destruct (read_own P s R) as (r & O & E & St & A & B & C & D). exists r. do 3 (split; auto).
  apply (sees_iff P) in S; auto. destruct (set_up_own s a r S H A B C D) as [NZ Q]. destruct (put_up_ok P r St NZ) as (s' & E' & R' & Q').
  rewrite E'. do 2 f_equal. apply wf_ext; auto; [now apply (reachable_wf P)|]. eapply aeq_trans; [exact Q'|now apply aeq_sym].
Qed.
Lemma plays_facts P p ms q : wf (pos_inner p) -> Forall valid_move ms -> plays P p ms q ->
  pos_initial q = pos_initial p /\ pos_moves q = pos_moves p ++ ms /\ wf (pos_inner q).
Proof.
  unfold plays. intros W F. revert p W. induction F as [|m ms V F IH]; intros p W E.
  - injection E as <-. rewrite app_nil_r. auto.
  - cbn [map pos_run length repeat] in E. rewrite pos_make_ok in E by auto. destruct (do_move (pos_inner p) m) as [s|] eqn:D; cbn [bind is_some] in E.
    + destruct (pos_run P _ (map PMove ms)) as [[q' bs]| |] eqn:E'; try discriminate. cbn [bind] in E. injection E as <- ->.
      apply IH in E' as (A & B & C); [|cbn [pos_inner]; eapply do_move_wf; eauto]. cbn [pos_initial pos_moves] in *. rewrite <- app_assoc in B. auto.
    + destruct (pos_run P p (map PMove ms)) as [[q' bs]| |]; discriminate.
Qed.
Lemma run_moves P ms : forall p s, wf (pos_inner p) -> Forall valid_move ms -> run_ops P (pos_inner p) (map OpMove ms) = Ret (s, repeat true (length ms)) ->
  plays P p ms (Position (pos_initial p) s (pos_moves p ++ ms)).
Proof.
  unfold plays. intros p s W F. rewrite run_ops_ok by auto using moves_valid. revert p W. induction F as [|m ms V F IH]; intros p W E.
  - cbn in E. injection E as <-. destruct p. cbn. now rewrite app_nil_r.
  - cbn [map do_ops do_op length repeat] in E. cbn [map pos_run length repeat]. rewrite pos_make_ok by auto. unfold try_move in E. destruct (do_move (pos_inner p) m) as [s1|] eqn:D; cbn [bind is_some].
    + specialize (IH (Position (pos_initial p) s1 (pos_moves p ++ [m]))). cbn [pos_inner pos_initial pos_moves] in IH. rewrite IH.
      * cbn [bind]. rewrite <- app_assoc. reflexivity.
      * eapply do_move_wf; eauto.
      * destruct (do_ops s1 (map OpMove ms)) as [s2 bs]. now injection E as <- <-.
    + destruct (do_ops (pos_inner p) (map OpMove ms)). discriminate.
Qed.
(** writing and reading a record that starts from [s] *)
Lemma record_back P s0 r p ms : reachable P s0 -> to_sfen_owned P s0 = Ret (sfen_text (abs s0)) -> read_sfen (sfen_text (abs s0)) = Some r -> storable r ->
  put_up P r = Ret (Some s0) -> Forall valid_move ms -> plays P (arbitrary_position s0) ms p ->
  exists t, record_text P p = Ret t /\ read_record P t = Ret (Some p).
Proof.
  intros R O E S U F Y. pose proof (reachable_wf P s0 R) as W. destruct (plays_facts P (arbitrary_position s0) ms p W F Y) as (A & B & _).
  cbn [arbitrary_position pos_initial pos_moves app] in A, B. unfold record_text, initial_position, moves. rewrite A, B, O, moves_texts_ok by auto. cbn [bind].
  eexists. split; [reflexivity|]. rewrite (read_sfen_line P (abs s0) r) by (auto; apply Forall_map, Forall_forall; intros; apply no_space_move).
  rewrite U. cbn [bind]. apply play_iff; [exact W|]. exists ms. split; auto. now apply tell_texts.
Qed.

(** C78: writing the record of a game and reading it gives the same [Position] back, if the text keeps the initial position. *)
Lemma c78_round_trip_pf : forall P p0 s0 a0 xs, created P p0 s0 -> sees P s0 a0 -> writes_down a0 -> Forall valid_call xs ->
  exists p bs t, pos_run P p0 xs = Ret (p, bs) /\ record_text P p = Ret t /\ read_record P t = Ret (Some p).
Proof.
  intros P p0 s0 a0 xs C S H V. destruct (c31_replay_pf P p0 s0 xs C V) as (p & bs & E & I & M & _ & Rp). exists p, bs.
  assert (Vm : Forall valid_move (moves p)).
  { rewrite M. assert (Vm : Forall valid_move (map call_move xs)).
    { apply Forall_map. eapply Forall_impl; [|exact V]. intros [m|c]; simpl; auto. intros Vc. now apply valid_compact_unpack. }
    clear -Vm. revert bs. induction Vm as [|m ms Hm _ IH]; intros bs; [constructor|].
    destruct bs as [|[] bs]; [constructor|constructor; [exact Hm|apply IH]|apply IH]. }
  apply created_facts in C as [R ->]. destruct (put_up_own P s0 a0 R S H) as (r & O & E' & St & U). rewrite I in Rp.
  pose proof (run_moves P (moves p) (arbitrary_position s0) (inner p) (reachable_wf P s0 R) Vm Rp) as Y.
  assert (Q : Position (pos_initial (arbitrary_position s0)) (inner p) (pos_moves (arbitrary_position s0) ++ moves p) = p).
  { destruct p as [i s l]. cbn in I |- *. now subst i. }
  rewrite Q in Y. destruct (record_back P s0 r p (moves p) R O E' St U Vm Y) as (t & T1 & T2). exists t. auto.
Qed.
Lemma opening_writes_down : writes_down a_opening.
Proof.
  split; [discriminate|]. split; [reflexivity|]. intros c. left. exists (Square (match c with Black => 45 | White => 37 end)).
  assert (X : forall t, valid_square t -> (a_board a_opening t = Some (King, c) <-> t = Square (match c with Black => 45 | White => 37 end))).
  { intros t Vt. apply In_squares in Vt. revert t Vt. apply Forall_forall. destruct c; repeat constructor; try discriminate; intros K; vm_compute in K; discriminate. }
  split; [split; [destruct c; split; discriminate|exact X]|destruct c; reflexivity].
Qed.
(** C78: from the opening position both forms of the text do. *)
Lemma c78_startpos_pf : forall P p0 xs, pos_startpos P = Ret p0 -> Forall valid_call xs ->
  exists p bs t u, pos_run P p0 xs = Ret (p, bs) /\ record_text P p = Ret t /\ startpos_text P p = Ret u /\
    read_record P t = Ret (Some p) /\ read_record P u = Ret (Some p).
Proof.
  intros P p0 xs E V. assert (C : created P p0 the_startpos) by (apply created_startpos; [exact E|apply startpos_ok]).
  assert (S : sees P the_startpos a_opening) by (apply sees_iff; [apply startpos_wf|apply abs_startpos]).
  pose proof opening_writes_down as H.
  destruct (c78_round_trip_pf P p0 the_startpos a_opening xs C S H V) as (p & bs & t & A & B & D).
  destruct (c31_replay_pf P p0 the_startpos xs C V) as (p' & bs' & A' & I & M & _ & Rp). rewrite A in A'. injection A' as <- <-.
  assert (Vm : Forall valid_move (moves p)).
  { rewrite M. assert (Vm : Forall valid_move (map call_move xs)).
    { apply Forall_map. eapply Forall_impl; [|exact V]. intros [m|c]; simpl; auto. intros Vc. now apply valid_compact_unpack. }
    clear -Vm. revert bs. induction Vm as [|m ms Hm _ IH]; intros bs; [constructor|].
    destruct bs as [|[] bs]; [constructor|constructor; [exact Hm|apply IH]|apply IH]. }
  rewrite I in Rp. pose proof (run_moves P (moves p) (arbitrary_position the_startpos) (inner p) startpos_wf Vm Rp) as Y.
  assert (Q : Position (pos_initial (arbitrary_position the_startpos)) (inner p) (pos_moves (arbitrary_position the_startpos) ++ moves p) = p).
  { destruct p as [i s l]. cbn in I |- *. now subst i. }
  rewrite Q in Y. exists p, bs, t, (with_moves [bytes "startpos"] (map move_text (moves p))). do 2 (split; auto).
  split; [unfold startpos_text; now rewrite moves_texts_ok|]. split; auto.
  rewrite read_startpos_line by (apply Forall_map, Forall_forall; intros; apply no_space_move). apply play_iff; [apply startpos_wf|].
  exists (moves p). split; auto. now apply tell_texts.
Qed.
(** what the reader accepts *)
Lemma read_moves_inv P p ws o : wf (pos_inner p) -> read_moves P p ws = Ret (Some o) ->
  exists vs ms, (ws = [] /\ vs = [] \/ ws = bytes "moves" :: vs) /\ tell vs ms /\ plays P p ms o.
Proof.
  intros W. destruct ws as [|w ws]; cbn [read_moves].
  - intros [= <-]. exists [], []. split; [now left|]. split; [constructor|reflexivity].
  - destruct (list_eqb N.eqb w (bytes "moves")) eqn:E; [|discriminate]. apply word_eq in E as ->. intros H. apply play_iff in H as (ms & T & Y); auto. exists ws, ms. auto.
Qed.
Lemma read_moves_total P p ws : wf (pos_inner p) -> exists o, read_moves P p ws = Ret o.
Proof. intros W. destruct ws as [|w ws]; cbn [read_moves]; [eauto|]. destruct (list_eqb N.eqb w (bytes "moves")); [now apply play_total|eauto]. Qed.
Lemma read_total P t : exists o, read_record P t = Ret o.
Proof.
  unfold read_record. destruct (cut t) as [|w rest]; [eauto|]. destruct (list_eqb N.eqb w (bytes "startpos")).
  { unfold pos_startpos. rewrite startpos_ok. cbn [bind]. apply read_moves_total, startpos_wf. }
  destruct (list_eqb N.eqb w (bytes "sfen")); [|eauto]. destruct rest as [|b [|c [|h [|n rest]]]]; eauto.
  destruct (read_sfen (join blank [b; c; h; n])) as [r|]; [|eauto]. destruct (fits r) eqn:F; [|eauto]. apply fits_iff in F.
  destruct (N.eq_dec (f_ply r) 0) as [Z|Z]; [rewrite put_up_zero by auto; cbn [bind]; eauto|].
  destruct (put_up_ok P r F Z) as (s & -> & R & _). cbn [bind]. apply read_moves_total. exact (reachable_wf P s R).
Qed.
(** a starting point that a text can name *)
Definition named (P : profile) (start : list N) (s : partial_position) : Prop :=
  start = bytes "startpos" /\ s = the_startpos \/
  exists x r, start = bytes "sfen" ++ blank ++ x /\ read_sfen x = Some r /\ storable r /\ f_ply r <> 0 /\ put_up P r = Ret (Some s).
Lemma read_inv P t q : read_record P t = Ret (Some q) ->
  exists start s vs ms, named P start s /\ (t = start /\ vs = [] \/ t = join blank (start :: bytes "moves" :: vs)) /\ tell vs ms /\
    plays P (arbitrary_position s) ms q.
Proof.
  intros H. pose proof (join_cut t []) as J. cbn [app] in J. fold (cut t) in J. unfold read_record in H. destruct (cut t) as [|w rest]; [discriminate|].
  destruct (list_eqb N.eqb w (bytes "startpos")) eqn:E1.
  { apply word_eq in E1 as ->. unfold pos_startpos in H. rewrite startpos_ok in H. cbn [bind] in H.
    apply read_moves_inv in H as (vs & ms & T & Y); [|apply startpos_wf]. exists (bytes "startpos"), the_startpos, vs, ms. split; [now left|]. split; auto.
    destruct T as [[-> ->]| ->]; [left; split; auto|right; auto]. }
  destruct (list_eqb N.eqb w (bytes "sfen")) eqn:E2; [|discriminate]. apply word_eq in E2 as ->. destruct rest as [|b [|c [|h [|n rest]]]]; try discriminate.
  destruct (read_sfen (join blank [b; c; h; n])) as [r|] eqn:R; [|discriminate]. destruct (fits r) eqn:F; [|discriminate]. apply fits_iff in F.
  destruct (N.eq_dec (f_ply r) 0) as [Z|Z]; [rewrite put_up_zero in H by auto; discriminate|]. destruct (put_up_ok P r F Z) as (s & U & Rs & A). rewrite U in H. cbn [bind] in H.
  apply read_moves_inv in H as (vs & ms & T & Y); [|exact (reachable_wf P s Rs)].
  exists (bytes "sfen" ++ blank ++ join blank [b; c; h; n]), s, vs, ms. split; [right; exists (join blank [b; c; h; n]), r; auto|]. split; auto. rewrite <- J.
  destruct T as [[-> ->]| ->]; [left; split; reflexivity|right].
  change (bytes "sfen" ++ blank ++ join blank [b; c; h; n]) with (join blank [bytes "sfen"; b; c; h; n]).
  change (bytes "sfen" :: b :: c :: h :: n :: bytes "moves" :: vs) with ([bytes "sfen"; b; c; h; n] ++ (bytes "moves" :: vs)). rewrite join_flat by easy. reflexivity.
Qed.
Lemma tell_valid ws ms : tell ws ms -> Forall valid_move ms.
Proof. induction 1 as [|w m ws ms [_ V] _ IH]; auto. Qed.
(** the text of a named starting point names it again *)
Lemma named_back P start s : named P start s -> reachable P s /\
  exists r, to_sfen_owned P s = Ret (sfen_text (abs s)) /\ read_sfen (sfen_text (abs s)) = Some r /\ storable r /\ put_up P r = Ret (Some s).
Proof.
  intros [[-> ->]|(x & r & -> & E & St & Z & U)].
  - assert (RS : reachable P the_startpos). { exists the_startpos, [], []. split; [right; apply startpos_ok|]. split; auto. }
    split; auto. destruct (read_own P the_startpos RS) as (r & O & E & St & A & B & C & D). exists r. do 3 (split; auto).
    assert (X : agree (Sfen (f_board r) (f_side r) (f_hand r) (f_ply r)) r) by (repeat split).
    assert (Y : exists r0, put_up P r0 = Ret (Some the_startpos) /\ agree r0 r /\ storable r0).
    { exists (Sfen (a_board a_opening) Black (fun _ _ => 0) 1). pose proof abs_startpos as (Q1 & Q2 & Q3 & Q4 & _). split; [destruct P; vm_compute; reflexivity|]. split.
      - split; [now rewrite A, Q1|]. split; [now rewrite B, Q2|]. split; [intros sq V; now rewrite C, Q3|intros c k K; rewrite D, Q4 by auto; reflexivity].
      - split; [reflexivity|]. intros; reflexivity. }
    destruct Y as (r0 & Y1 & Y2 & Y3). now rewrite <- (agree_put_up P r0 r Y2 Y3).
  - destruct (put_up_ok P r St Z) as (s' & U' & R & Q). rewrite U in U'. injection U' as <-. split; auto.
    destruct (read_own P s R) as (r' & O & E' & St' & A & B & C & D). exists r'. do 3 (split; auto). rewrite <- U. symmetry. apply agree_put_up; auto.
    destruct Q as (Q1 & Q2 & Q3 & Q4 & _). destruct (set_up_is r (abs pp_empty) Z) as (X1 & X2 & _ & X4 & X5 & _).
    split; [now rewrite A, Q1|]. split; [now rewrite B, Q2|]. split; [intros sq V; now rewrite C, Q3, X4|intros c k K; now rewrite D, Q4, X5].
Qed.
(** C78: the reader never panics, whatever the bytes; what it accepts is written again, and read again, as the same [Position]. *)
Lemma c78_reader_pf : forall P t, read_record P t = Ret None \/
  exists q t', read_record P t = Ret (Some q) /\ record_text P q = Ret t' /\ read_record P t' = Ret (Some q).
Proof.
  intros P t. destruct (read_total P t) as [[q|] E]; auto. right. exists q. destruct (read_inv P t q E) as (start & s & vs & ms & N & _ & T & Y).
  destruct (named_back P start s N) as (R & r & O & E' & St & U). destruct (record_back P s r q ms R O E' St U (tell_valid vs ms T) Y) as (t' & A & B). eauto.
Qed.
(** C78: what an accepted text says: the observers of the initial position show what the SFEN tells, no move was made on it, the kings
    are found, and the moves of the [Position] are those the words tell, each accepted in turn. *)
Lemma c78_meaning_pf : forall P t q, read_record P t = Ret (Some q) ->
  exists start vs, (t = start /\ vs = [] \/ t = join (bytes " ") (start :: bytes "moves" :: vs)) /\
    tell vs (moves q) /\ plays P (arbitrary_position (initial_position q)) (moves q) q /\
    (start = bytes "startpos" /\ pos_startpos P = Ret (arbitrary_position (initial_position q)) \/
     exists x r, start = bytes "sfen " ++ x /\ read_sfen x = Some r /\ shows P (initial_position q) r /\ last_move P (initial_position q) = Ret None /\
       (forall c sq, only_king (f_board r) c sq -> king_position P (initial_position q) c = Ret (Some sq)) /\
       (forall c, no_king (f_board r) c -> king_position P (initial_position q) c = Ret None)).
Proof.
  intros P t q H. destruct (read_inv P t q H) as (start & s & vs & ms & N & T & Tl & Y). pose proof (named_back P start s N) as (R & _).
  pose proof (reachable_wf P s R) as W. destruct (plays_facts P (arbitrary_position s) ms q W (tell_valid vs ms Tl) Y) as (A & B & _).
  cbn [arbitrary_position pos_initial pos_moves app] in A, B. exists start, vs. unfold initial_position, moves. rewrite A, B. do 3 (split; auto).
  destruct N as [[-> ->]|(x & r & -> & E & St & Z & U)].
  - left. split; auto. unfold pos_startpos. now rewrite startpos_ok.
  - right. exists x, r. split; auto. split; auto. destruct (put_up_ok P r St Z) as (s' & U' & _ & Q). rewrite U in U'. injection U' as <-.
    destruct (set_up_is r (abs pp_empty) Z) as (X1 & X2 & X3 & X4 & X5 & _). split; [eapply shows_sees; eauto|].
    destruct Q as (_ & _ & _ & _ & Q5 & Q6). pose proof abs_empty as (_ & _ & _ & _ & E5 & E6). split; [|split].
    + rewrite last_move_ok by auto. change (last_at s) with (a_last (abs s)). rewrite Q5, X3, E5. reflexivity.
    + intros c sq O. rewrite king_position_ok by auto. change (king_at s c) with (a_king (abs s) c). rewrite Q6. f_equal. now apply (set_up_king r (abs pp_empty) c Z).
    + intros c O. rewrite king_position_ok by auto. change (king_at s c) with (a_king (abs s) c). rewrite Q6. f_equal.
      destruct (set_up_king r (abs pp_empty) c Z) as [_ K]. rewrite K by auto. now rewrite E6.
Qed.
(** C78: after the text of an initial position that it keeps, the reader accepts exactly the words that tell moves [make_move] accepts
    one after the other. *)
Lemma c78_accepts_pf : forall P s0 a0 t ws q, reachable P s0 -> sees P s0 a0 -> writes_down a0 -> to_sfen_owned P s0 = Ret t ->
  Forall (fun w => ~ In 32 w) ws ->
  (read_record P (with_moves [bytes "sfen"; t] ws) = Ret (Some q) <-> exists ms, tell ws ms /\ plays P (arbitrary_position s0) ms q).
Proof.
  intros P s0 a0 t ws q R S H O F. destruct (put_up_own P s0 a0 R S H) as (r & O' & E & St & U). rewrite O in O'. injection O' as ->.
  rewrite (read_sfen_line P (abs s0) r) by auto. rewrite U. cbn [bind]. apply play_iff. exact (reachable_wf P s0 R).
Qed.
(** C78: what the text loses: the last move of an initial position on which moves were made. *)
Lemma c78_last_move_lost_pf : forall P s m, reachable P s -> ply s <> 0 -> last_move P s = Ret (Some m) ->
  exists t q, record_text P (arbitrary_position s) = Ret t /\ read_record P t = Ret (Some q) /\ record_text P q = Ret t /\
    last_move P (initial_position q) = Ret None /\ pos_eqb q (arbitrary_position s) = false.
Proof.
  intros P s m R Z L. pose proof (reachable_wf P s R) as W. destruct (read_own P s R) as (r & O & E & St & A & B & C & D).
  assert (Zr : f_ply r <> 0) by (rewrite B; exact Z). destruct (put_up_ok P r St Zr) as (s' & U & R' & Q). pose proof (reachable_wf P s' R') as W'.
  exists (with_moves [bytes "sfen"; sfen_text (abs s)] []), (arbitrary_position s').
  assert (T : forall x, record_text P (arbitrary_position x) = (t <- to_sfen_owned P x;; Ret (with_moves [bytes "sfen"; t] []))) by reflexivity. rewrite !T.
  split; [now rewrite O|]. split; [rewrite (read_sfen_line P (abs s) r); auto; now rewrite U|].
  destruct Q as (Q1 & Q2 & Q3 & Q4 & Q5 & _). destruct (set_up_is r (abs pp_empty) Zr) as (X1 & X2 & X3 & X4 & X5 & _). pose proof abs_empty as (_ & _ & _ & _ & E5 & _).
  assert (N : last_at s' = None) by (change (last_at s') with (a_last (abs s')); rewrite Q5, X3; exact E5). split; [|split].
  - destruct (c33_text_pf P s' (abs s') R' (sees_abs P s' W')) as (_ & O' & _). rewrite O'. cbn [bind]. do 3 f_equal.
    replace (sfen_text (abs s')) with (sfen_text (abs s)); auto. apply sfen_text_agree.
    + now rewrite Q1, X1.
    + now rewrite Q2, X2.
    + intros sq V. now rewrite Q3, X4, C.
    + intros c k K. now rewrite Q4, X5, D.
  - unfold initial_position, arbitrary_position. cbn [pos_initial]. now rewrite last_move_ok, N.
  - destruct (pos_eqb _ _) eqn:X; auto. exfalso. unfold pos_eqb in X. rewrite !andb_true_iff in X. destruct X as [[X _] _]. cbn [arbitrary_position pos_initial] in X.
    apply pp_eqb_eq in X; auto. subst s'. rewrite last_move_ok, N in L by auto. discriminate.
Qed.
