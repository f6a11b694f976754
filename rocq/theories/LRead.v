(** Reading back the texts. *)
From Verif Require Export LSfen.

(** ** Boards *)
Lemma read_rows_piece x t rows cur ad : read_rows (piece_text x ++ t) rows cur ad false = read_rows t rows (cur ++ [Some x]) false false.
Proof. destruct x as [k c]. destruct k, c; reflexivity. Qed.
Lemma read_rows_vacancies v t rows cur : v <= 9 -> exists ad,
  read_rows (vacancies v ++ t) rows cur false false = read_rows t rows (cur ++ repeat None (N.to_nat v)) ad false.
Proof.
  intros H. assert (C : v = 0 \/ v = 1 \/ v = 2 \/ v = 3 \/ v = 4 \/ v = 5 \/ v = 6 \/ v = 7 \/ v = 8 \/ v = 9) by lia.
  destruct C as [->|C]; [exists false; cbn [repeat N.to_nat]; now rewrite app_nil_r|].
  exists true. repeat destruct C as [->|C]; [..|subst v]; reflexivity.
Qed.
Lemma read_rows_sep sep t rows cur ad : sep = 47 \/ sep = 32 -> read_rows (sep :: t) rows cur ad false = read_rows (sep :: t) rows cur false false.
Proof. intros [-> | ->]; reflexivity. Qed.
Lemma read_rows_row sep t rows : sep = 47 \/ sep = 32 -> forall cells v cur, v + N.of_nat (length cells) <= 9 ->
  read_rows (row_text v cells ++ sep :: t) rows cur false false = read_rows (sep :: t) rows (cur ++ repeat None (N.to_nat v) ++ cells) false false.
Proof.
  intros S. induction cells as [|o cells IH]; intros v cur B; cbn [row_text length] in *.
  - destruct (read_rows_vacancies v (sep :: t) rows cur ltac:(lia)) as [ad ->]. rewrite read_rows_sep by auto. now rewrite app_nil_r.
  - destruct o as [x|].
    + rewrite <- !app_assoc. destruct (read_rows_vacancies v (piece_text x ++ row_text 0 cells ++ sep :: t) rows cur ltac:(lia)) as [ad ->].
      rewrite read_rows_piece, IH by lia. cbn [repeat N.to_nat app]. now rewrite <- !app_assoc.
    + rewrite IH by lia. do 2 f_equal. replace (N.to_nat (v + 1)) with (N.to_nat v + 1)%nat by lia. rewrite repeat_app. cbn [repeat].
      now rewrite <- app_assoc.
Qed.
Lemma read_board b t : read_rows (board_text b ++ 32 :: t) [] [] false false = Some (map (row b) ranks, t).
Proof.
  unfold board_text, ranks. cbn [map join]. change (bytes "/") with [47]. cbn [app]. rewrite <- !app_assoc. cbn [app].
  do 8 (rewrite <- ?app_assoc; cbn [app]; rewrite read_rows_row by (try (now left); cbn; lia); cbn [read_rows N.eqb Pos.eqb app repeat N.to_nat]).
  rewrite read_rows_row by (try (now right); cbn; lia). reflexivity.
Qed.
Lemma board_of_read b s : valid_square s -> board_of_rows (map (row b) ranks) s = b s.
Proof.
  intros V. rewrite <- (square_at_coords s V) at 2. pose proof (file_rank_bounds s V) as [F R].
  unfold board_of_rows, row. revert F R. generalize (file_of s) (rank_of s). intros f r F R.
  assert (CF : f = 1 \/ f = 2 \/ f = 3 \/ f = 4 \/ f = 5 \/ f = 6 \/ f = 7 \/ f = 8 \/ f = 9) by lia.
  assert (CR : r = 1 \/ r = 2 \/ r = 3 \/ r = 4 \/ r = 5 \/ r = 6 \/ r = 7 \/ r = 8 \/ r = 9) by lia.
  clear F R. repeat destruct CF as [->|CF]; try subst f; repeat destruct CR as [->|CR]; try subst r; reflexivity.
Qed.

(** ** Hands *)
Lemma digit_not_space c : is_digit c = true -> c =? 32 = false.
Proof. unfold is_digit. rewrite andb_true_iff, !N.leb_le, N.eqb_neq. lia. Qed.
Lemma read_hands_digits h t : forall ds n, n <> 0 -> Forall (fun c => is_digit c = true) ds ->
  read_hands (ds ++ t) n h = read_hands t (fold_left (fun n c => 10 * n + (c - 48)) ds n) h.
Proof.
  induction ds as [|c ds IH]; intros n N0 F; auto. apply Forall_cons_iff in F as [D F]. cbn [app read_hands fold_left].
  rewrite digit_not_space, D by auto. apply N.eqb_neq in N0 as N1. rewrite N1. cbn [andb]. apply IH; auto. lia.
Qed.
Lemma decimal_cons n : exists c ds, decimal n = c :: ds /\ is_digit c = true /\ Forall (fun c => is_digit c = true) ds /\ (c = 48 -> n = 0).
Proof.
  destruct (decimal_canonical n) as (NE & F & V & Z). destruct (decimal n) as [|c ds]; [easy|]. apply Forall_cons_iff in F as [D F].
  exists c, ds. repeat split; auto. intros ->. cbn [hd] in Z. specialize (Z eq_refl). injection Z as ->. now subst n.
Qed.
Lemma read_hands_decimal h t n : n <> 0 -> read_hands (decimal n ++ t) 0 h = read_hands t n h.
Proof.
  intros H. pose proof (decimal_value n) as V. destruct (decimal_cons n) as (c & ds & E & D & F & Z). rewrite E in *.
  cbn [app read_hands]. rewrite digit_not_space, D by auto. destruct (N.eqb_spec c 48) as [->|C]; [now destruct (H (Z eq_refl))|].
  change ((0 =? 0) && false) with false. cbv iota. rewrite read_hands_digits; auto.
  - f_equal. exact V.
  - unfold is_digit in D. rewrite andb_true_iff, !N.leb_le in D. lia.
Qed.
Lemma read_hands_letter h t n c k : In k hand_kinds -> h c k = 0 -> n <> 1 ->
  read_hands (piece_text (k, c) ++ t) n h =
  read_hands t 0 (fun d l => if same_color d c && same_kind l k then (if n =? 0 then 1 else n) else h d l).
Proof.
  intros K H N1. apply N.eqb_neq in N1.
  assert (R : read_hands (piece_text (k, c) ++ t) n h = if can_be_in_hand k && (h c k =? 0) && negb (n =? 1) then
    read_hands t 0 (fun d l => if same_color d c && same_kind l k then (if n =? 0 then 1 else n) else h d l) else None).
  { cbn in K. repeat destruct K as [<-|K]; [..|tauto]; destruct c; reflexivity. }
  rewrite R, H, N1. apply can_be_in_hand_iff in K. now rewrite K.
Qed.
Lemma same_color_iff c d : same_color c d = true <-> c = d.
Proof. destruct c, d; cbn; split; congruence. Qed.
Lemma same_kind_iff k l : same_kind k l = true <-> k = l.
Proof. unfold same_kind. rewrite N.eqb_eq. split; [apply kind_number_inj|now intros ->]. Qed.
Lemma read_hands_list g t : forall l h, NoDup l -> (forall c k, In (c, k) l -> In k hand_kinds /\ h c k = 0) ->
  exists h', read_hands (flat_map (hand_entry g) l ++ t) 0 h = read_hands t 0 h' /\
    (forall c k, In (c, k) l -> h' c k = g c k) /\ (forall c k, ~ In (c, k) l -> h' c k = h c k).
Proof.
  induction l as [|[c k] l IH]; intros h ND Z; cbn [flat_map].
  { exists h. repeat split; auto. intros c k []. }
  apply NoDup_cons_iff in ND as [NI ND]. destruct (Z c k) as [K H0]; [now left|].
  unfold hand_entry at 1. cbn [fst snd]. destruct (N.eqb_spec (g c k) 0) as [E|E].
  { cbn [app]. destruct (IH h ND) as (h' & R & A & B). { intros. apply Z. now right. }
    exists h'. repeat split; auto.
    - intros d l' [[= <- <-]|I]; auto. rewrite B by auto. congruence.
    - intros d l' NI'. apply B. intros I. apply NI'. now right. }
  set (h1 := fun d l => if same_color d c && same_kind l k then g c k else h d l).
  assert (S : read_hands (((if g c k =? 1 then [] else decimal (g c k)) ++ piece_text (k, c)) ++ flat_map (hand_entry g) l ++ t) 0 h =
    read_hands (flat_map (hand_entry g) l ++ t) 0 h1).
  { rewrite <- app_assoc. destruct (N.eqb_spec (g c k) 1) as [E1|E1].
    - cbn [app]. rewrite read_hands_letter by (auto; discriminate). unfold h1. now rewrite E1.
    - rewrite read_hands_decimal by auto. rewrite read_hands_letter by auto. apply N.eqb_neq in E. now rewrite E. }
  rewrite <- app_assoc, S. clear S.
  assert (H1 : forall d l', (d, l') <> (c, k) -> h1 d l' = h d l').
  { intros d l' NE. unfold h1. destruct (same_color d c) eqn:E1, (same_kind l' k) eqn:E2; auto.
    apply same_color_iff in E1. apply same_kind_iff in E2. congruence. }
  destruct (IH h1 ND) as (h' & R & A & B).
  { intros d l' I. destruct (Z d l') as [K' H']; [now right|]. split; auto. rewrite H1; auto. congruence. }
  exists h'. split; [exact R|]. split.
  - intros d l' [[= <- <-]|I]; auto. rewrite B by auto. unfold h1.
    rewrite (proj2 (same_color_iff c c)), (proj2 (same_kind_iff k k)) by auto. reflexivity.
  - intros d l' NI'. rewrite B by (intros I; apply NI'; now right). apply H1. intros EQ. apply NI'. left. now symmetry.
Qed.
Lemma hand_order_kinds c k : In (c, k) hand_order <-> In k hand_kinds.
Proof.
  split.
  - cbn. intros H. repeat destruct H as [[= <- <-]|H]; tauto.
  - intros H. unfold hand_order. apply in_app_iff. destruct c; [left|right]; apply in_map; cbn in *; tauto.
Qed.
Lemma hand_order_nodup : NoDup hand_order.
Proof. unfold hand_order. cbn [map app]. repeat constructor; cbn; intuition discriminate. Qed.
Lemma not_dash {A} c t (x : list N -> A) y : c <> 45 -> (match c :: t with 45 :: 32 :: t' => x t' | _ => y end) = y.
Proof. intros H. destruct c as [|p]; auto. do 6 (destruct p; auto). now contradiction H. Qed.
Lemma hands_first h t : exists c r, flat_map (hand_entry h) hand_order ++ 32 :: t = c :: r /\ c <> 45.
Proof.
  assert (F : Forall (fun c => c <> 45) (flat_map (hand_entry h) hand_order)).
  { apply Forall_flat_map. apply Forall_forall. intros [c k] I. apply hand_order_kinds in I. unfold hand_entry. cbn [fst snd].
    destruct (h c k =? 0); [constructor|]. apply Forall_app. split.
    - destruct (h c k =? 1); [constructor|]. destruct (decimal_canonical (h c k)) as (_ & D & _). eapply Forall_impl; [|exact D].
      intros a. unfold is_digit. rewrite andb_true_iff, !N.leb_le. lia.
    - cbn in I. repeat destruct I as [<-|I]; [..|tauto]; destruct c; repeat constructor; discriminate. }
  destruct (flat_map (hand_entry h) hand_order) as [|c r]; [exists 32, t; now split|]. apply Forall_cons_iff in F as [F _]. cbn [app]. eauto.
Qed.
Lemma read_hands_ok h t : exists h', (match hands_text h ++ 32 :: t with
    | 45 :: 32 :: t' => Some (fun _ _ => 0, t') | _ => read_hands (hands_text h ++ 32 :: t) 0 (fun _ _ => 0) end) = Some (h', t) /\
  forall c k, In k hand_kinds -> h' c k = h c k.
Proof.
  unfold hands_text. destruct (forallb (fun x => h (fst x) (snd x) =? 0) hand_order) eqn:E.
  - exists (fun _ _ => 0). split; auto. intros c k K. rewrite forallb_forall in E. apply hand_order_kinds with (c := c) in K.
    apply E in K. apply N.eqb_eq in K. auto.
  - destruct (read_hands_list h (32 :: t) hand_order (fun _ _ => 0) hand_order_nodup) as (h' & R & A & _).
    { intros c k I. apply hand_order_kinds in I. auto. }
    exists h'. split; [|intros c k K; apply A; now apply hand_order_kinds].
    destruct (hands_first h t) as (c & r & F & C). rewrite F in *. rewrite not_dash by auto. rewrite R. reflexivity.
Qed.
Lemma read_number_ok n : read_number (decimal n) = Some n.
Proof.
  destruct (decimal_canonical n) as (NE & F & V & Z). unfold read_number. rewrite V.
  replace (forallb is_digit (decimal n)) with true by (symmetry; now apply forallb_forall, Forall_forall).
  destruct (decimal n) as [|c [|d r]]; [easy|reflexivity|]. destruct (N.eqb_spec c 48) as [->|]; [discriminate (Z eq_refl)|reflexivity].
Qed.

(** ** SFEN *)
Lemma read_sfen_text a : exists r, read_sfen (sfen_text a) = Some r /\ f_side r = a_side a /\ f_ply r = a_ply a /\
  (forall sq, valid_square sq -> f_board r sq = a_board a sq) /\ (forall c k, In k hand_kinds -> f_hand r c k = a_hand a c k).
Proof.
  unfold read_sfen, sfen_text. change (bytes " ") with [32]. cbn [app]. rewrite read_board.
  destruct (read_hands_ok (a_hand a) (decimal (a_ply a))) as (h & R & H).
  exists (Sfen (board_of_rows (map (row (a_board a)) ranks)) (a_side a) h (a_ply a)).
  split; [|cbn [f_side f_ply f_board f_hand]; repeat split; auto; intros; now apply board_of_read].
  replace ((length (map (row (a_board a)) ranks) =? 9)%nat && forallb (fun r => length r =? 9)%nat (map (row (a_board a)) ranks)) with true by reflexivity.
  destruct (a_side a); [change (color_text Black) with [98]|change (color_text White) with [119]]; cbn [app].
  all: change (read_color [98]) with (Some Black); change (read_color [119]) with (Some White); cbv iota.
  all: rewrite R, read_number_ok; reflexivity.
Qed.
