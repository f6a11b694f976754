(** The texts written by the printing functions. *)
From Coq Require Import Decimal DecimalFacts DecimalPos DecimalN.
From Verif Require Export LWriter LExt.

(** ** Decimal texts *)
Lemma value_acc u : forall acc, fold_left (fun n c => 10 * n + (c - 48)) (uint_text u) (Npos acc) = Npos (Pos.of_uint_acc u acc).
Proof.
  induction u; intros acc; cbn [uint_text fold_left Pos.of_uint_acc]; auto;
    match goal with |- fold_left _ _ ?a = Npos (Pos.of_uint_acc _ ?b) => replace a with (Npos b) by lia; apply IHu end.
Qed.
Lemma value_uint u : digits_value (uint_text u) = N.of_uint u.
Proof.
  unfold digits_value. induction u; cbn [uint_text fold_left]; auto;
    match goal with |- fold_left _ _ ?a = N.of_uint ?u => first
      [ replace a with 0 by lia; exact IHu
      | let p := eval vm_compute in a in match p with Npos ?q => replace a with (Npos q) by reflexivity end; now rewrite value_acc ] end.
Qed.
Lemma decimal_value n : digits_value (decimal n) = n.
Proof. unfold decimal. rewrite value_uint. apply DecimalN.Unsigned.of_to. Qed.
Lemma uint_text_digits u : Forall (fun c => is_digit c = true) (uint_text u).
Proof. induction u; cbn [uint_text]; constructor; auto. Qed.
Lemma to_uint_norm n : unorm (N.to_uint n) = N.to_uint n.
Proof. rewrite <- DecimalN.Unsigned.to_of. f_equal. apply DecimalN.Unsigned.of_to. Qed.
Lemma nzhead_first u : hd 0 (uint_text (nzhead u)) <> 48.
Proof. induction u; simpl; auto; discriminate. Qed.
Lemma unorm_text u : uint_text (unorm u) <> [] /\ (hd 0 (uint_text (unorm u)) = 48 -> uint_text (unorm u) = [48]).
Proof.
  unfold unorm. pose proof (nzhead_first u) as H. destruct (nzhead u); cbn [uint_text hd] in *; split; try discriminate; auto; try contradiction.
Qed.
Lemma decimal_canonical n : canonical_decimal (decimal n) n.
Proof.
  unfold canonical_decimal. pose proof (unorm_text (N.to_uint n)) as U. rewrite to_uint_norm in U. split; [apply U|].
  split; [apply uint_text_digits|]. split; [apply decimal_value|apply U].
Qed.
Lemma digits_uint t : Forall (fun c => is_digit c = true) t -> exists u, uint_text u = t.
Proof.
  induction 1 as [|c t H F [u E]]; [now exists Nil|]. unfold is_digit in H. apply andb_true_iff in H as [H1 H2]. apply N.leb_le in H1, H2.
  assert (C : c = 48 \/ c = 49 \/ c = 50 \/ c = 51 \/ c = 52 \/ c = 53 \/ c = 54 \/ c = 55 \/ c = 56 \/ c = 57) by lia.
  repeat destruct C as [->|C]; [exists (D0 u)|exists (D1 u)|exists (D2 u)|exists (D3 u)|exists (D4 u)|exists (D5 u)|exists (D6 u)|exists (D7 u)|exists (D8 u)|subst c; exists (D9 u)];
    simpl; now rewrite E.
Qed.
Lemma uint_text_inj u : forall v, uint_text u = uint_text v -> u = v.
Proof. induction u; intros [| | | | | | | | | |]; simpl; try discriminate; auto; intros [= E]; f_equal; auto. Qed.
Lemma canonical_unique t n : canonical_decimal t n -> t = decimal n.
Proof.
  intros (NE & F & V & Z). destruct (digits_uint t F) as [u <-]. unfold decimal. f_equal. rewrite value_uint in V. subst n.
  rewrite DecimalN.Unsigned.to_of. clear F. destruct u; cbn [uint_text hd] in *; try reflexivity; [now contradiction NE|].
  specialize (Z eq_refl). injection Z as Z. apply (uint_text_inj u Nil) in Z. now subst.
Qed.

(** ** Combining printers *)
Lemma prints_does f chunks : (forall W (K : sink W), does K (f W K) chunks) -> prints f (concat chunks).
Proof. intros H. exists chunks. split; auto. Qed.
Lemma prints_eq f t t' : prints f t -> t = t' -> prints f t'.
Proof. now intros H <-. Qed.
Lemma prints_ext f g t : (forall W (K : sink W) w, g W K w = f W K w) -> prints f t -> prints g t.
Proof. intros E (c & H & D). exists c. split; auto. intros. now rewrite E. Qed.
Lemma prints_ok : prints (fun W K => wok) [].
Proof. apply (prints_does _ []). intros. apply does_ok. Qed.
Lemma prints_seq (f g : printer) a b : prints f a -> prints g b -> prints (fun W K => f W K ?; g W K) (a ++ b).
Proof.
  intros (c & <- & F) (d & <- & G). rewrite <- concat_app. apply prints_does. intros. apply does_seq; intros w; auto.
Qed.
Lemma prints_bind {A} (m : res A) a (f : A -> printer) t : m = Ret a -> prints (f a) t -> prints (fun W K => wbind m (fun x => f x W K)) t.
Proof. intros -> H. exact H. Qed.
Lemma prints_str s : prints (fun W K => wstr K s) s.
Proof. eapply prints_eq; [apply prints_does; intros; apply does_str|]. simpl. apply app_nil_r. Qed.
Lemma prints_ascii b : b < 128 -> prints (fun W K => write_ascii_byte K b) [b].
Proof. intros H. apply (prints_does _ [[b]]). intros. now apply does_ascii. Qed.
Lemma prints_u8 P v : v < 256 -> prints (fun W K => write_u8 P K v) (decimal v).
Proof. intros H. eapply prints_eq; [apply prints_does; intros; now apply does_u8|]. now rewrite concat_digits, u8_text. Qed.
Lemma prints_u16 P v : v < 65536 -> prints (fun W K => write_u16 P K v) (decimal v).
Proof. intros H. eapply prints_eq; [apply prints_does; intros; now apply does_u16|]. now rewrite concat_digits, u16_text. Qed.

(** ** USI *)
Lemma prints_color c : prints (fun W K => color_to_usi K c) (color_text c).
Proof. destruct c; apply prints_str. Qed.
Lemma prints_kind P k : prints (fun W K => pk_to_usi P K k) (kind_text k).
Proof. apply (prints_ext (fun W K => wstr K (kind_text k))); [|apply prints_str]. intros. destruct P, k; vm_compute; reflexivity. Qed.
Lemma prints_piece P p : valid_piece p -> prints (fun W K => piece_to_usi P K p) (piece_text (parts_of p)).
Proof.
  intros V. apply (prints_ext (fun W K => wstr K (piece_text (parts_of p)))); [|apply prints_str]. intros W K w.
  revert p V. refine (piece_cases _ _). destruct P; each ltac:(vm_compute; reflexivity).
Qed.
Lemma file_rank_bounds s : valid_square s -> on_board (file_of s) (rank_of s).
Proof. unfold valid_square, on_board, file_of, rank_of. lia. Qed.
Lemma prints_square P s : valid_square s -> prints (fun W K => sq_to_usi P K s) (square_text s).
Proof.
  intros V. pose proof (file_rank_bounds s V) as [F R]. unfold sq_to_usi, square_text.
  change [48 + file_of s; 96 + rank_of s] with ([48 + file_of s] ++ [96 + rank_of s] ++ []).
  apply prints_seq; [|apply prints_seq; [|apply prints_ok]].
  - eapply (prints_bind _ _ (fun b W K => write_ascii_byte K b)); [|apply prints_ascii; lia].
    rewrite sq_file_ok by auto. cbn [bind]. apply add_w_ok. change (2 ^ 8) with 256. change (byte "0") with 48. lia.
  - eapply (prints_bind _ _ (fun b W K => write_ascii_byte K b)); [|apply prints_ascii; lia].
    rewrite sq_rank_ok by auto. cbn [bind]. change (byte "a") with 97. rewrite add_w_ok by (change (2 ^ 8) with 256; lia). cbn [bind].
    rewrite sub_w_ok by lia. f_equal. lia.
Qed.
Lemma prints_move P m : valid_move m -> prints (fun W K => move_to_usi P K m) (move_text m).
Proof.
  destruct m as [f t pr|p t]; intros [V1 V2]; cbn [move_to_usi move_text].
  - apply prints_seq; [now apply prints_square|]. apply prints_seq; [now apply prints_square|].
    rewrite <- (app_nil_r (if pr then _ else _)). apply prints_seq; [|apply prints_ok]. destruct pr; [apply prints_ascii; reflexivity|apply prints_ok].
  - eapply (prints_bind _ _ (fun k W K => pk_to_usi P K k ?; write_ascii_byte K (byte "*") ?; sq_to_usi P K t ?; wok)); [now apply piece_piece_kind_ok|].
    apply prints_seq; [apply prints_kind|]. apply prints_seq; [apply prints_ascii; reflexivity|].
    rewrite <- (app_nil_r (square_text t)). apply prints_seq; [now apply prints_square|apply prints_ok].
Qed.
Lemma prints_compact P c : valid_compact c -> prints (fun W K => cm_to_usi P K c) (move_text (unpack c)).
Proof.
  intros V. unfold cm_to_usi. eapply (prints_bind _ _ (fun m W K => move_to_usi P K m)); [now apply move_of_cm_unpack|].
  apply prints_move. now apply valid_compact_unpack.
Qed.

(** ** Hands *)
Lemma get_unchecked_nth {A} (l : list A) i d : (N.to_nat i < length l)%nat -> arr_get_unchecked l i = Ret (nth (N.to_nat i) l d).
Proof. intros H. unfold arr_get_unchecked. now rewrite (nth_error_nth' l d H). Qed.
Definition entry (n letter : N) : list N := if n =? 0 then [] else (if n =? 1 then [] else decimal n) ++ [letter].
Lemma prints_hand P h letters js : valid_hand h -> length letters = 7%nat -> Forall (fun b => b < 128) letters -> Forall (fun j => j < 7) js ->
  prints (fun W K => hand_usi_loop P K h letters js)
    (flat_map (fun j => entry (nth (N.to_nat j) (hand_bytes h) 0) (nth (N.to_nat j) letters 0)) js).
Proof.
  intros (L & B & _) LL A. induction js as [|j js IH]; intros F; [apply prints_ok|]. apply Forall_cons_iff in F as [J F].
  cbn [hand_usi_loop flat_map].
  eapply (prints_bind _ _ (fun count W K => (if 0 <? count then (if 2 <=? count then write_u8 P K count else wok) ?;
         wbind (arr_get_unchecked letters j) (write_ascii_byte K) else wok) ?; hand_usi_loop P K h letters js)).
  { apply get_unchecked_nth with (d := 0). lia. }
  assert (C : nth (N.to_nat j) (hand_bytes h) 0 < 256) by (apply (nth_Forall (fun b => b < 256)); auto; reflexivity).
  assert (D : nth (N.to_nat j) letters 0 < 128) by (apply (nth_Forall (fun b => b < 128)); auto; reflexivity).
  apply prints_seq; [|auto]. set (n := nth (N.to_nat j) (hand_bytes h) 0) in *. unfold entry.
  destruct (N.eqb_spec n 0) as [->|H0]; [apply prints_ok|]. replace (0 <? n) with true by (symmetry; apply N.ltb_lt; lia).
  apply prints_seq.
  - destruct (N.eqb_spec n 1) as [->|H1]; [apply prints_ok|]. replace (2 <=? n) with true by (symmetry; apply N.leb_le; lia). now apply prints_u8.
  - eapply (prints_bind _ _ (fun b W K => write_ascii_byte K b)); [apply get_unchecked_nth with (d := 0); lia|now apply prints_ascii].
Qed.
Lemma hand_eqb_zero h : valid_hand h -> hand_eqb h hand_new = forallb (fun k => in_hand h k =? 0) [Rook; Bishop; Gold; Silver; Knight; Lance; Pawn].
Proof.
  intros V. apply eq_true_iff_eq. rewrite hand_eqb_eq by (auto using hand_new_valid). rewrite forallb_forall. split.
  - intros -> k _. now rewrite hand_new_count.
  - intros E. destruct V as (L & _ & Z). destruct h as [bs]. cbn [hand_bytes] in *.
    destruct bs as [|b0 [|b1 [|b2 [|b3 [|b4 [|b5 [|b6 [|b7 [|? ?]]]]]]]]]; try discriminate L. cbn [nth] in Z. subst b7.
    assert (I : forall k, In k [Rook; Bishop; Gold; Silver; Knight; Lance; Pawn] -> in_hand (Hand [b0; b1; b2; b3; b4; b5; b6; 0]) k = 0)
      by (intros; now apply N.eqb_eq, E).
    assert (E0 : b0 = 0) by (apply (I Pawn); cbn; tauto).
    assert (E1 : b1 = 0) by (apply (I Lance); cbn; tauto).
    assert (E2 : b2 = 0) by (apply (I Knight); cbn; tauto).
    assert (E3 : b3 = 0) by (apply (I Silver); cbn; tauto).
    assert (E4 : b4 = 0) by (apply (I Gold); cbn; tauto).
    assert (E5 : b5 = 0) by (apply (I Bishop); cbn; tauto).
    assert (E6 : b6 = 0) by (apply (I Rook); cbn; tauto).
    now subst.
Qed.
Lemma prints_hands P h0 h1 : valid_hand h0 -> valid_hand h1 ->
  prints (fun W K => hands_to_usi P K [h0; h1]) (hands_text (fun c k => in_hand (match c with Black => h0 | White => h1 end) k)).
Proof.
  intros V0 V1. unfold hands_to_usi.
  eapply (prints_bind (arr_index [h0; h1] 0) h0 (fun h0' W K => wbind (if hand_eqb h0' hand_new
         then (h1 <- arr_index [h0; h1] 1;; Ret (hand_eqb h1 hand_new)) else Ret false) (fun empty =>
  if empty then wstr K (bytes "-")
  else hands_usi_loop P K [h0; h1] [bytes "PLNSGBR"; bytes "plnsgbr"] (range 0 2)))); [reflexivity|].
  eapply (prints_bind _ _ (fun (empty : bool) W K => if empty then wstr K (bytes "-")
    else hands_usi_loop P K [h0; h1] [bytes "PLNSGBR"; bytes "plnsgbr"] (range 0 2))).
  { instantiate (1 := hand_eqb h0 hand_new && hand_eqb h1 hand_new). destruct (hand_eqb h0 hand_new); reflexivity. }
  unfold hands_text. replace (forallb _ hand_order) with (hand_eqb h0 hand_new && hand_eqb h1 hand_new)
    by (rewrite !hand_eqb_zero by auto; unfold hand_order; rewrite forallb_app; reflexivity).
  destruct (hand_eqb h0 hand_new && hand_eqb h1 hand_new); [apply prints_str|].
  unfold hand_order. rewrite flat_map_app. change (range 0 2) with [0; 1]. cbn [hands_usi_loop].
  eapply (prints_bind (arr_index [h0; h1] 0) h0 (fun h W K => wbind _ (fun l => hand_usi_loop P K h l _ ?; _))); [reflexivity|].
  eapply (prints_bind _ (bytes "PLNSGBR") (fun l W K => hand_usi_loop P K h0 l _ ?; _)); [reflexivity|].
  apply prints_seq.
  { eapply prints_eq; [apply prints_hand; auto; repeat constructor|reflexivity]. }
  eapply (prints_bind (arr_index [h0; h1] 1) h1 (fun h W K => wbind _ (fun l => hand_usi_loop P K h l _ ?; _))); [reflexivity|].
  eapply (prints_bind _ (bytes "plnsgbr") (fun l W K => hand_usi_loop P K h1 l _ ?; _)); [reflexivity|].
  eapply prints_eq; [apply prints_seq; [apply prints_hand; auto; repeat constructor|apply prints_ok]|].
  rewrite app_nil_r. reflexivity.
Qed.

(** ** Rows *)
Definition cell_at (s : partial_position) (i j : N) : board_cell := option_map parts_of (op_into (nth (N.to_nat ((8 - j) * 9 + i)) (pp_board s) (OptionPiece 0))).
Lemma prints_vacancies P v : v < 256 -> prints (fun W K => if 0 <? v then write_u8 P K v else wok) (vacancies v).
Proof.
  intros H. unfold vacancies. destruct (N.eqb_spec v 0) as [->|]; [apply prints_ok|].
  replace (0 <? v) with true by (symmetry; apply N.ltb_lt; lia). now apply prints_u8.
Qed.
Lemma prints_row P s i js : wf s -> i < 9 -> Forall (fun j => j < 9) js -> forall v, v + N.of_nat (length js) < 256 ->
  prints (fun W K => sfen_row_loop P K (pp_board s) i js v) (row_text v (map (cell_at s i) js)).
Proof.
  intros Wf I. induction js as [|j js IH]; intros F v B; cbn [sfen_row_loop map row_text].
  - cbn [length] in B. pose proof (prints_vacancies P v ltac:(lia)) as H. revert H. destruct (0 <? v); auto.
    intros H. rewrite <- (app_nil_r (vacancies v)). now apply prints_seq; [|apply prints_ok].
  - apply Forall_cons_iff in F as [J F]. cbn [length] in B.
    eapply (prints_bind _ _ (fun cur W K => match op_into cur with
      | Some occupying => (if 0 <? v then write_u8 P K v else wok) ?; piece_to_usi P K occupying ?;
          sfen_row_loop P K (pp_board s) i js (if 0 <? v then 0 else v)
      | None => wbind (add_w P 8 v 1) (fun v => sfen_row_loop P K (pp_board s) i js v) end)).
    { rewrite sub_w_ok by lia. cbn [bind]. rewrite mul_w_ok by (change (2 ^ 64) with 18446744073709551616; lia). cbn [bind].
      rewrite add_w_ok by (change (2 ^ 64) with 18446744073709551616; lia). cbn [bind].
      apply get_unchecked_nth with (d := OptionPiece 0). rewrite (wf_board_len _ Wf). lia. }
    rewrite (N.mul_comm 9). unfold cell_at at 1. set (o := nth (N.to_nat ((8 - j) * 9 + i)) (pp_board s) (OptionPiece 0)).
    assert (CO : cell_ok o) by (apply nth_Forall; [apply Wf|exact Logic.I]). unfold cell_ok in CO.
    destruct (op_into o) as [p|]; cbn [option_map].
    + apply prints_seq; [apply prints_vacancies; lia|]. apply prints_seq; [now apply prints_piece|].
      replace (if 0 <? v then 0 else v) with 0 by (destruct (N.ltb_spec 0 v); lia). apply IH; auto. lia.
    + eapply (prints_bind _ _ (fun v W K => sfen_row_loop P K (pp_board s) i js v)); [apply add_w_ok; change (2 ^ 8) with 256; lia|]. apply IH; auto. lia.
Qed.
Lemma row_cells s i : i < 9 -> map (cell_at s i) (range 0 9) = row (a_board (abs s)) (i + 1).
Proof.
  intros I. unfold row. change (range 0 9) with (map (fun f => 9 - f) files). rewrite map_map. apply map_ext_in. intros f F.
  assert (1 <= f <= 9) by (unfold files in F; cbn in F; lia). unfold cell_at, abs, cell, square_at. cbn [a_board sq_repr].
  do 3 f_equal. lia.
Qed.
Lemma prints_rows P s : wf s -> prints (fun W K => sfen_rows P K (pp_board s) (range 0 9)) (board_text (a_board (abs s))).
Proof.
  intros Wf. unfold board_text, ranks. change (range 0 9) with [0; 1; 2; 3; 4; 5; 6; 7; 8]. cbn [map join sfen_rows].
  assert (R : forall i, i < 9 -> prints (fun W K => sfen_row_loop P K (pp_board s) i (range 0 9) 0) (row_text 0 (row (a_board (abs s)) (i + 1)))).
  { intros i I. rewrite <- row_cells by auto. apply prints_row; auto; [repeat constructor|reflexivity]. }
  do 8 (apply prints_seq; [refine (R _ _); reflexivity|]; apply prints_seq; [apply prints_ascii; reflexivity|]).
  rewrite <- (app_nil_r (row_text 0 (row _ 9))). apply prints_seq; [refine (R 8 _); reflexivity|].
  exact (prints_seq _ _ _ _ prints_ok prints_ok).
Qed.
Lemma hands_text_ext h h' : (forall c k, In k hand_kinds -> h c k = h' c k) -> hands_text h = hands_text h'.
Proof.
  intros E. unfold hands_text. 
  assert (F : forall x, In x hand_order -> h (fst x) (snd x) = h' (fst x) (snd x)).
  { intros [c k] H. cbn [fst snd]. apply E. revert H. clear. cbn. intros H. repeat destruct H as [[= <- <-]|H]; tauto. }
  replace (forallb (fun x => h (fst x) (snd x) =? 0) hand_order) with (forallb (fun x => h' (fst x) (snd x) =? 0) hand_order).
  - destruct (forallb _ hand_order); auto. rewrite !flat_map_concat_map. f_equal. apply map_ext_in. intros x H. unfold hand_entry. now rewrite F.
  - clear E. induction hand_order as [|x l IH]; auto. cbn [forallb]. rewrite F by (left; auto). f_equal. apply IH. intros. apply F. now right.
Qed.
Lemma prints_sfen P s : wf s -> prints (fun W K => to_sfen P K s) (sfen_text (abs s)).
Proof.
  intros Wf. unfold to_sfen, sfen_text. rewrite <- (app_nil_r (decimal _)).
  apply prints_seq; [now apply prints_rows|]. apply prints_seq; [apply prints_ascii; reflexivity|].
  apply prints_seq; [apply prints_color|]. apply prints_seq; [apply prints_ascii; reflexivity|].
  apply prints_seq; [|apply prints_seq; [apply prints_ascii; reflexivity|apply prints_seq; [apply prints_u16, Wf|apply prints_ok]]].
  pose proof (wf_hands_len _ Wf) as L. pose proof (hand_at_valid s Black Wf) as VB. pose proof (hand_at_valid s White Wf) as VW.
  unfold abs, hand_at in *. cbn [a_hand]. destruct (pp_hands s) as [|h0 [|h1 [|? ?]]]; try discriminate L.
  eapply prints_eq; [now apply prints_hands|]. apply hands_text_ext. now intros [].
Qed.
