(** Proofs of the property theorems on USI and SFEN text (restated in Prop_Sfen.v). *)
From Verif Require Export TPosition LLength Sample.
(*PROPHEAD
Property theorems C33-C39: USI and SFEN text
From Verif Require Import LSample.
*)

(** ** SFEN *)
Lemma sfen_text_agree a b : a_side a = a_side b -> a_ply a = a_ply b -> (forall sq, valid_square sq -> a_board a sq = a_board b sq) ->
  (forall c k, In k hand_kinds -> a_hand a c k = a_hand b c k) -> sfen_text a = sfen_text b.
Proof.
  intros A B C D. unfold sfen_text. rewrite A, B, (hands_text_ext _ _ D). f_equal. unfold board_text.
  f_equal. apply map_ext_in. intros r R. f_equal. unfold row. apply map_ext_in. intros f F. apply C. apply square_at_valid.
  assert (forall x, In x ranks -> 1 <= x <= 9) by (intros x; cbn; lia). assert (forall x, In x files -> 1 <= x <= 9) by (intros x; cbn; lia).
  split; auto.
Qed.
Lemma sfen_text_ext a b : aeq a b -> sfen_text a = sfen_text b.
Proof. intros (A & B & C & D & _). now apply sfen_text_agree. Qed.
(** C33: [to_sfen] writes exactly the standard SFEN text, to every sink. *)
Lemma c33_text_pf : forall P s a, reachable P s -> sees P s a ->
  prints (fun W K => to_sfen P K s) (sfen_text a) /\
  to_sfen_owned P s = Ret (sfen_text a) /\
  (forall p, inner p = s -> pos_to_sfen_owned P p = Ret (sfen_text a)).
Proof.
  intros P s a R S. pose proof (reachable_wf P s R) as W. apply sees_iff in S; auto. rewrite <- (sfen_text_ext _ _ S).
  pose proof (prints_sfen P s W) as H. split; auto.
  assert (O : to_sfen_owned P s = Ret (sfen_text (abs s))).
  { unfold to_sfen_owned. pose proof (prints_string _ _ H) as E. cbv beta in E. unfold string_sink. rewrite E. reflexivity. }
  split; auto. intros p <-. exact O.
Qed.
(** C33: a reader of the SFEN grammar recovers the board, the side to move, the hands and the ply number. *)
Lemma c33_reads_back_pf : forall P s a, reachable P s -> sees P s a ->
  exists t r, to_sfen_owned P s = Ret t /\ read_sfen t = Some r /\
    f_side r = side_to_move s /\ f_ply r = ply s /\
    (forall sq, valid_square sq -> f_board r sq = a_board a sq) /\
    (forall c k, In k hand_kinds -> f_hand r c k = a_hand a c k).
Proof.
  intros P s a R S. destruct (c33_text_pf P s a R S) as (_ & O & _). destruct (read_sfen_text a) as (r & E & A & B & C).
  exists (sfen_text a), r. destruct S as (S1 & S2 & _). split; auto. split; auto. rewrite S1, S2. auto.
Qed.
(** C33: two positions have the same SFEN text exactly if they have the same side to move, ply number, board and hands. *)
Lemma c33_same_text_pf : forall P s s' a a', reachable P s -> reachable P s' -> sees P s a -> sees P s' a' ->
  (to_sfen_owned P s = to_sfen_owned P s' <->
   side_to_move s = side_to_move s' /\ ply s = ply s' /\
   (forall sq, valid_square sq -> piece_at P s sq = piece_at P s' sq) /\
   (forall c k, In k hand_kinds -> a_hand a c k = a_hand a' c k)).
Proof.
  intros P s s' a a' R R' S S'. destruct (c33_text_pf P s a R S) as (_ & O & _). destruct (c33_text_pf P s' a' R' S') as (_ & O' & _).
  rewrite O, O'. destruct S as (S1 & S2 & S3 & _). destruct S' as (S1' & S2' & S3' & _). rewrite S1, S2, S1', S2'. split.
  - intros [= E]. destruct (read_sfen_text a) as (r & E1 & A & B & C & D). destruct (read_sfen_text a') as (r' & E1' & A' & B' & C' & D').
    rewrite E, E1' in E1. injection E1 as <-. repeat split; try congruence.
    + intros sq V. rewrite S3, S3' by auto. now rewrite <- C, <- C' by auto.
    + intros c k K. now rewrite <- D, <- D'.
  - intros (A & B & C & D). f_equal.
    apply sfen_text_agree; auto. intros sq V. specialize (C sq V). rewrite S3, S3' in C by auto.
    destruct (a_board a sq), (a_board a' sq); cbn [option_map] in C; try discriminate; auto. f_equal. apply the_piece_inj. congruence.
Qed.

(** ** Buffer length *)
Fixpoint addresses (ptr : N) (t : list N) : list (N * N) := match t with [] => [] | b :: r => (ptr, b) :: addresses (ptr + 1) r end.
Lemma addresses_app t u : forall ptr, addresses ptr (t ++ u) = addresses ptr t ++ addresses (ptr + len t) u.
Proof.
  induction t as [|b t IH]; intros ptr; cbn [app addresses length]; [now rewrite N.add_0_r|]. rewrite IH. cbn [app]. do 3 f_equal. lia.
Qed.
Lemma addresses_combine t : forall ptr n,
  map (fun ib => (ptr + N.of_nat (fst ib), snd ib)) (combine (seq n (length t)) t) = addresses (ptr + N.of_nat n) t.
Proof.
  induction t as [|b t IH]; intros ptr n; auto. cbn [length seq combine map addresses fst snd]. f_equal. rewrite IH. f_equal. lia.
Qed.
Lemma feed_bridge chunks : forall ptr log,
  feed bridge_sink chunks (Bridge ptr log) = (Bridge (ptr + len (concat chunks)) (log ++ addresses ptr (concat chunks)), true).
Proof.
  induction chunks as [|c chunks IH]; intros ptr log; cbn [feed concat]; [cbn [addresses length]; now rewrite app_nil_r, N.add_0_r|].
  cbn [write_str bridge_sink br_ptr br_log]. rewrite IH. rewrite addresses_combine, addresses_app, len_app, N.add_0_r, app_assoc, N.add_assoc. reflexivity.
Qed.
Lemma sfen_c_ok P s ptr : wf s -> to_sfen_c P s ptr = Ret (addresses ptr (sfen_text (abs s) ++ [0])).
Proof.
  intros W. destruct (prints_sfen P s W) as (chunks & <- & H). unfold to_sfen_c. rewrite H, feed_bridge. cbn [bind].
  rewrite (does_ascii bridge_sink 0) by reflexivity. rewrite feed_bridge. cbn [bind br_log concat app]. now rewrite addresses_app, N.add_0_l || rewrite addresses_app.
Qed.
Lemma addresses_len t : forall ptr, len (addresses ptr t) = len t.
Proof. induction t as [|b t IH]; intros ptr; cbn [addresses length]; auto. rewrite !Nat2N.inj_succ. now rewrite IH. Qed.
Lemma within_aeq a b : aeq a b -> within_a_set a -> within_a_set b.
Proof.
  intros (_ & _ & C & D & _) H k K. specialize (H k K). rewrite !on_board_cnt in *. rewrite <- !D by auto. now rewrite <- (cnt_ext _ _ _ C).
Qed.
Lemma within_play P s : played P s -> within_a_set (abs s).
Proof.
  intros H. destruct (c27_conserved_pf P s (abs s) H) as [C _]; [apply sees_abs; eapply played_wf; eauto|]. intros k K. now rewrite C.
Qed.
Lemma hand_under s c k : wf s -> In k hand_kinds -> a_hand (abs s) c k < 256.
Proof.
  intros W K. cbn [abs a_hand]. destruct (hand_at_valid s c W) as (L & F & _). unfold in_hand. apply (nth_Forall (fun b => b < 256)); auto. reflexivity.
Qed.
Lemma set_bytes P s ptr : wf s -> within_a_set (abs s) -> exists log, to_sfen_c P s ptr = Ret log /\ len log <= 137.
Proof.
  intros W H. rewrite sfen_c_ok by auto. eexists. split; [reflexivity|]. rewrite addresses_len, len_app. pose proof (sfen_len_set (abs s) H (wf_ply _ W)).
  change (len [0]) with 1. lia.
Qed.
(** C34: [to_sfen_c] writes at most 139 bytes, whatever has been played. *)
Lemma c34_in_play_pf : forall P s ptr, played P s ->
  (exists log, to_sfen_c P s ptr = Ret log /\ len log <= 139) /\
  (forall p, inner p = s -> exists log, pos_to_sfen_c P p ptr = Ret log /\ len log <= 139).
Proof.
  intros P s ptr H. assert (G : exists log, to_sfen_c P s ptr = Ret log /\ len log <= 139).
  { destruct (set_bytes P s ptr) as (log & E & L); [eapply played_wf; eauto|eapply within_play; eauto|]. exists log. split; auto. lia. }
  split; auto. intros p <-. exact G.
Qed.
Definition spread_pos : partial_position :=
  Eval vm_compute in match plain the_startpos spread with Some s => s | None => pp_empty end.
Lemma spread_plain : plain the_startpos spread = Some spread_pos.
Proof. vm_compute. reflexivity. Qed.
Lemma spread_valid : Forall valid_move spread.
Proof. repeat constructor; vm_compute; discriminate. Qed.
Lemma long_game P n : exists s, played P s /\ like spread_pos s /\ ply s = (1 + (4 * N.of_nat n + 36)) mod 65536.
Proof.
  set (ms := dances n ++ spread).
  assert (V : Forall valid_move ms) by (apply Forall_app; auto using dances_valid, spread_valid).
  assert (exists t, plain the_startpos ms = Some t /\ like spread_pos t) as (t & Ht & L).
  { unfold ms. rewrite plain_app. destruct (dances_like n the_startpos (like_refl _)) as (t & -> & L).
    destruct (plain_like _ _ _ _ L spread_plain) as (t' & E & L'). eauto. }
  assert (RS : reachable P the_startpos). { exists the_startpos, [], []. split; [right; apply startpos_ok|]. split; auto. }
  pose proof (run_ops_ok P the_startpos (map OpMove ms) startpos_wf (moves_valid ms V)) as RO. rewrite (plain_ops _ _ _ Ht) in RO.
  destruct (c26_moves_pf P the_startpos ms RS V) as (s' & bs & E & _ & _ & B & _). rewrite RO in E. injection E as <- <-.
  exists t. split; [|split; auto].
  - exists the_startpos, ms, (repeat true (length ms)). auto using startpos_ok.
  - rewrite accepted_all in B. rewrite B. unfold ms. rewrite app_length, dances_length. change (ply the_startpos) with 1.
    change (length spread) with 36%nat. f_equal. f_equal. lia.
Qed.
Lemma spread_length s : like spread_pos s -> len (sfen_text (abs s)) = 131 + len (decimal (ply s)).
Proof.
  intros (p & l & ->). rewrite sfen_len. cbn [a_ply abs ply pp_ply with_ply with_last_move].
  change (a_board (abs (with_last_move (with_ply spread_pos p) l))) with (a_board (abs spread_pos)).
  change (a_hand (abs (with_last_move (with_ply spread_pos p) l))) with (a_hand (abs spread_pos)).
  replace (len (board_text (a_board (abs spread_pos)))) with 123 by (vm_compute; reflexivity).
  replace (len (hands_text (a_hand (abs spread_pos)))) with 4 by (vm_compute; reflexivity).
  unfold ply. cbn [pp_ply]. lia.
Qed.
(** C34: the exact maximum in play is 137 bytes: it is never exceeded, and a game reaches it. *)
Lemma c34_exact_maximum_pf : forall P ptr,
  (forall s, played P s -> exists log, to_sfen_c P s ptr = Ret log /\ len log <= 137) /\
  (exists s log, played P s /\ to_sfen_c P s ptr = Ret log /\ len log = 137).
Proof.
  intros P ptr. split.
  - intros s H. apply set_bytes; [eapply played_wf; eauto|eapply within_play; eauto].
  - destruct (long_game P (N.to_nat 2500)) as (s & H & L & Y). exists s. eexists. split; [exact H|].
    rewrite sfen_c_ok by (eapply played_wf; eauto). split; [reflexivity|]. rewrite addresses_len, len_app, (spread_length s L), Y, N2Nat.id. reflexivity.
Qed.

(** C35, as documented: at most 139 bytes for every position the safe API can build. It is false: 236 bytes. *)
Definition stuffed_pos : partial_position :=
  Eval vm_compute in match run_ops Debug pp_empty stuffed with Ret (s, _) => s | _ => pp_empty end.
Lemma stuffed_run P : run_ops P pp_empty stuffed = Ret (stuffed_pos, repeat true 84).
Proof. destruct P; vm_compute; reflexivity. Qed.
Lemma stuffed_valid : Forall valid_op stuffed.
Proof.
  unfold stuffed. apply Forall_app. split.
  - apply Forall_forall. intros o I. apply in_map_iff in I as (sq & <- & I). split; [|apply piece_of_valid]. rewrite squares_eq in I. now apply valid_square_In.
  - repeat apply Forall_cons; try apply Forall_nil; cbn [valid_op].
    + split; [reflexivity|]. split; [repeat constructor|reflexivity].
    + split; [reflexivity|]. split; [repeat constructor|reflexivity].
    + reflexivity.
Qed.
Lemma stuffed_reachable P : reachable P stuffed_pos.
Proof. exists pp_empty, stuffed, (repeat true 84). split; [now left|]. split; [apply stuffed_valid|apply stuffed_run]. Qed.
(** C35: the documented bound fails: a position built by safe calls whose SFEN takes 236 bytes.
    Full statement: [forall P s ptr, reachable P s -> exists log, to_sfen_c P s ptr = Ret log /\ len log <= 139]. *)
Lemma c35_139_bytes_refuted_pf : forall P ptr, exists s log,
  reachable P s /\ to_sfen_c P s ptr = Ret log /\ len log = 236 /\ ~ len log <= 139.
Proof.
  intros P ptr. exists stuffed_pos. eexists. split; [apply stuffed_reachable|].
  rewrite sfen_c_ok by (apply (reachable_wf P), stuffed_reachable). split; [reflexivity|]. rewrite addresses_len, len_app.
  replace (len (sfen_text (abs stuffed_pos))) with 235 by (vm_compute; reflexivity). change (len [0]) with 1. split; [reflexivity|lia].
Qed.
(** C35, what does hold for every position: at most 236 bytes (attained, see above).
    Full statement: [forall P s ptr, reachable P s -> exists log, to_sfen_c P s ptr = Ret log /\ len log <= 139]. *)
Lemma c35_at_most_236_partial_pf : forall P s ptr, reachable P s ->
  exists log, to_sfen_c P s ptr = Ret log /\ len log <= 236.
Proof.
  intros P s ptr R. pose proof (reachable_wf P s R) as W. rewrite sfen_c_ok by auto. eexists. split; [reflexivity|]. rewrite addresses_len, len_app.
  pose proof (sfen_len_any (abs s) (fun c k => hand_under s c k W) (wf_ply _ W)). change (len [0]) with 1. lia.
Qed.
(** C35, the documented bound holds for every position, edited or not, with no more pieces than a full set (kings aside).
    Full statement: [forall P s ptr, reachable P s -> exists log, to_sfen_c P s ptr = Ret log /\ len log <= 139]. *)
Lemma c35_full_set_partial_pf : forall P s a ptr, reachable P s -> sees P s a -> within_a_set a ->
  exists log, to_sfen_c P s ptr = Ret log /\ len log <= 139.
Proof.
  intros P s a ptr R S H. pose proof (reachable_wf P s R) as W. apply sees_iff in S; auto.
  destruct (set_bytes P s ptr W) as (log & E & L); [eapply within_aeq; [apply aeq_sym, S|exact H]|]. exists log. split; auto. lia.
Qed.

(** ** The bytes in memory *)
Lemma pokes_below t : forall m ptr x, x < ptr -> pokes m (addresses ptr t) x = m x.
Proof.
  induction t as [|b t IH]; intros m ptr x L; cbn [addresses]; auto. unfold pokes in *. cbn [fold_left]. rewrite IH by lia.
  unfold poke. cbn [fst]. destruct (N.eqb_spec x ptr); auto. lia.
Qed.
Lemma pokes_above t : forall m ptr x, ptr + len t <= x -> pokes m (addresses ptr t) x = m x.
Proof.
  induction t as [|b t IH]; intros m ptr x L; cbn [addresses length] in *; auto. unfold pokes in *. cbn [fold_left]. rewrite IH by lia.
  unfold poke. cbn [fst]. destruct (N.eqb_spec x ptr); auto. lia.
Qed.
Lemma pokes_in t : forall m ptr i b, nth_error t i = Some b -> pokes m (addresses ptr t) (ptr + N.of_nat i) = b.
Proof.
  induction t as [|c t IH]; intros m ptr [|i] b E; cbn [nth_error addresses] in *; try discriminate.
  - injection E as ->. unfold pokes. cbn [fold_left]. rewrite N.add_0_r. fold (pokes (poke m (ptr, b)) (addresses (ptr + 1) t)).
    rewrite pokes_below by lia. unfold poke. cbn [fst snd]. now rewrite N.eqb_refl.
  - unfold pokes. cbn [fold_left]. fold (pokes (poke m (ptr, c)) (addresses (ptr + 1) t)).
    replace (ptr + N.of_nat (S i)) with (ptr + 1 + N.of_nat i) by lia. now apply IH.
Qed.
Lemma decimal_no_nul n : Forall (fun b => b <> 0) (decimal n).
Proof.
  destruct (decimal_canonical n) as (_ & D & _). eapply Forall_impl; [|exact D]. intros a. unfold is_digit. rewrite andb_true_iff, !N.leb_le. lia.
Qed.
Lemma piece_no_nul x : Forall (fun b => b <> 0) (piece_text x).
Proof. destruct x as [k c]. destruct k, c; repeat constructor; discriminate. Qed.
Lemma row_no_nul cells : forall v, Forall (fun b => b <> 0) (row_text v cells).
Proof.
  assert (V : forall v, Forall (fun b => b <> 0) (vacancies v)) by (intros v; unfold vacancies; destruct (v =? 0); auto using decimal_no_nul).
  induction cells as [|[x|] cells IH]; intros v; cbn [row_text]; auto. repeat (apply Forall_app; split); auto using piece_no_nul.
Qed.
Lemma sfen_no_nul a : Forall (fun b => b <> 0) (sfen_text a).
Proof.
  assert (SP : Forall (fun b => b <> 0) (bytes " ")) by (repeat constructor; discriminate).
  unfold sfen_text. apply Forall_app; split; [|apply Forall_app; split; [exact SP|apply Forall_app; split; [|apply Forall_app; split; [exact SP|
    apply Forall_app; split; [|apply Forall_app; split; [exact SP|apply decimal_no_nul]]]]]].
  - unfold board_text, ranks. cbn [map join]. repeat (apply Forall_app; split); auto using row_no_nul; repeat constructor; discriminate.
  - destruct (a_side a); repeat constructor; discriminate.
  - unfold hands_text. destruct (forallb _ _); [repeat constructor; discriminate|]. apply Forall_flat_map, Forall_forall. intros x _.
    unfold hand_entry. destruct (_ =? 0); auto. apply Forall_app. split; auto using piece_no_nul. destruct (_ =? 1); auto using decimal_no_nul.
Qed.
(** C36: [to_sfen_c] leaves the SFEN text as a C string at [ptr], and changes nothing outside its bytes and the NUL. *)
Lemma c36_c_string_pf : forall P s ptr, reachable P s -> exists t log,
  to_sfen_owned P s = Ret t /\ to_sfen_c P s ptr = Ret log /\
  forall m, c_string (pokes m log) ptr t /\ (forall x, x < ptr \/ ptr + len t < x -> pokes m log x = m x).
Proof.
  intros P s ptr R. pose proof (reachable_wf P s R) as W. destruct (c33_text_pf P s (abs s) R (sees_abs P s W)) as (_ & O & _).
  exists (sfen_text (abs s)). eexists. split; [exact O|]. rewrite sfen_c_ok by auto. split; [reflexivity|]. intros m. split.
  - split.
    + intros i b E. split.
      * apply pokes_in. rewrite nth_error_app1; auto. apply nth_error_Some. congruence.
      * apply nth_error_In in E. pose proof (sfen_no_nul (abs s)) as F. rewrite Forall_forall in F. auto.
    + apply pokes_in. rewrite nth_error_app2 by lia. now rewrite Nat.sub_diag.
  - intros x [L|L]; [now apply pokes_below|]. apply pokes_above. rewrite len_app. change (len [0]) with 1. lia.
Qed.
(** C36: each byte is stored exactly once, in ascending order, and [Position] does the same. *)
Lemma c36_stores_pf : forall P s ptr, reachable P s -> exists t log,
  to_sfen_owned P s = Ret t /\ to_sfen_c P s ptr = Ret log /\
  map snd log = t ++ [0] /\ map fst log = map (fun i => ptr + N.of_nat i) (seq 0 (length t + 1)) /\
  (forall p, inner p = s -> pos_to_sfen_c P p ptr = Ret log).
Proof.
  intros P s ptr R. pose proof (reachable_wf P s R) as W. destruct (c33_text_pf P s (abs s) R (sees_abs P s W)) as (_ & O & _).
  exists (sfen_text (abs s)). eexists. split; [exact O|]. rewrite sfen_c_ok by auto. split; [reflexivity|].
  split; [|split].
  - generalize (sfen_text (abs s) ++ [0]) ptr. induction l as [|b l IH]; intros q; cbn [addresses map snd]; congruence.
  - replace (length (sfen_text (abs s)) + 1)%nat with (length (sfen_text (abs s) ++ [0])) by now rewrite app_length.
    generalize (sfen_text (abs s) ++ [0]). intros l.
    assert (G : forall n, map fst (addresses (ptr + N.of_nat n) l) = map (fun i => ptr + N.of_nat i) (seq n (length l))).
    { induction l as [|b l IH]; intros n; cbn [addresses map fst length seq]; auto. f_equal. rewrite <- IH. do 2 f_equal. lia. }
    specialize (G 0%nat). now rewrite N.add_0_r in G.
  - intros p <-. unfold pos_to_sfen_c. now apply sfen_c_ok.
Qed.

(** ** USI *)
Lemma owned P f t : prints f t -> to_usi_owned P (f _ string_sink) = Ret t.
Proof. intros H. unfold to_usi_owned, string_sink. rewrite (prints_string _ _ H). cbn [bind]. now destruct P. Qed.
(** C37: the USI text of colors, kinds, pieces and squares, and reading it back. *)
Lemma c37_values_pf : forall P,
  (forall c, prints (fun W K => color_to_usi K c) (color_text c) /\ to_usi_owned P (color_to_usi string_sink c) = Ret (color_text c) /\
     read_color (color_text c) = Some c) /\
  (forall k, prints (fun W K => pk_to_usi P K k) (kind_text k) /\ to_usi_owned P (pk_to_usi P string_sink k) = Ret (kind_text k) /\
     read_piece (kind_text k) = Some (k, Black)) /\
  (forall p, valid_piece p -> prints (fun W K => piece_to_usi P K p) (piece_text (kind_of p, color_of p)) /\
     to_usi_owned P (piece_to_usi P string_sink p) = Ret (piece_text (kind_of p, color_of p)) /\
     option_map the_piece (read_piece (piece_text (kind_of p, color_of p))) = Some p) /\
  (forall s, valid_square s -> prints (fun W K => sq_to_usi P K s) (square_text s) /\
     to_usi_owned P (sq_to_usi P string_sink s) = Ret (square_text s) /\ read_square (square_text s) = Some s).
Proof.
  intros P. split; [|split; [|split]].
  - intros c. pose proof (prints_color c) as H. split; auto. split; [apply (owned P _ _ H)|now destruct c].
  - intros k. pose proof (prints_kind P k) as H. split; auto. split; [apply (owned P _ _ H)|now destruct k].
  - intros p V. pose proof (prints_piece P p V) as H. split; auto. split; [apply (owned P _ _ H)|].
    fold (parts_of p). replace (read_piece (piece_text (parts_of p))) with (Some (parts_of p)).
    + cbn [option_map]. f_equal. now apply the_piece_parts.
    + destruct (parts_of p) as [k c]. destruct k, c; reflexivity.
  - intros s V. pose proof (prints_square P s V) as H. split; auto. split; [apply (owned P _ _ H)|].
    unfold square_text, read_square. pose proof (file_rank_bounds s V) as [F R].
    replace ((49 <=? 48 + file_of s) && (48 + file_of s <=? 57) && (97 <=? 96 + rank_of s) && (96 + rank_of s <=? 105)) with true
      by (symmetry; rewrite !andb_true_iff, !N.leb_le; lia).
    replace (48 + file_of s - 48) with (file_of s) by lia. replace (96 + rank_of s - 96) with (rank_of s) by lia. now rewrite square_at_coords.
Qed.
Lemma read_square_text s : valid_square s -> read_square [48 + file_of s; 96 + rank_of s] = Some s.
Proof. apply (c37_values_pf Debug). Qed.
Lemma read_move_text m : valid_move m -> read_move (move_text m) = Some (as_usi m).
Proof.
  destruct m as [f t pr|p t]; intros [V1 V2]; cbn [move_text as_usi].
  - pose proof (read_square_text f V1) as E1. pose proof (read_square_text t V2) as E2. unfold square_text.
    pose proof (file_rank_bounds f V1) as [F R]. revert E1. generalize (file_of f) (rank_of f) F R. clear F R. intros x y F R E1.
    set (c' := 48 + file_of t) in *. set (d' := 96 + rank_of t) in *. clearbody c' d'.
    assert (CX : x = 1 \/ x = 2 \/ x = 3 \/ x = 4 \/ x = 5 \/ x = 6 \/ x = 7 \/ x = 8 \/ x = 9) by lia.
    assert (CY : y = 1 \/ y = 2 \/ y = 3 \/ y = 4 \/ y = 5 \/ y = 6 \/ y = 7 \/ y = 8 \/ y = 9) by lia. clear F R.
    assert (G : forall (pr : bool) rest, rest = (if pr then bytes "+" else []) ->
      read_move ([48 + x; 96 + y] ++ [c'; d'] ++ rest) = match read_square [48 + x; 96 + y], read_square [c'; d'] with
                      | Some from, Some to => Some (UNormal from to pr) | _, _ => None end).
    { clear E1 E2. intros [] rest ->; repeat destruct CX as [->|CX]; try subst x; repeat destruct CY as [->|CY]; try subst y; reflexivity. }
    rewrite (G pr _ eq_refl), E1, E2. reflexivity.
  - pose proof (read_square_text t V2) as E. unfold square_text. pose proof (file_rank_bounds t V2) as [_ R].
    set (c := 48 + file_of t) in *. clearbody c. revert R E. generalize (rank_of t). intros y R E.
    assert (CY : y = 1 \/ y = 2 \/ y = 3 \/ y = 4 \/ y = 5 \/ y = 6 \/ y = 7 \/ y = 8 \/ y = 9) by lia. clear R.
    assert (G : forall k, read_move (kind_text k ++ bytes "*" ++ [c; 96 + y]) =
      match read_square [c; 96 + y] with Some to => Some (UDrop k to) | None => None end).
    { clear E. intros k; repeat destruct CY as [->|CY]; try subst y; destruct k; reflexivity. }
    now rewrite G, E.
Qed.
(** C37: the USI text of a [Move], and reading it back; it tells everything but the color of a dropped piece. *)
Lemma c37_moves_pf : forall P m, valid_move m ->
  prints (fun W K => move_to_usi P K m) (move_text m) /\
  to_usi_owned P (move_to_usi P string_sink m) = Ret (move_text m) /\
  read_move (move_text m) = Some (as_usi m) /\
  (forall m', valid_move m' -> move_text m' = move_text m ->
     match m, m' with Drop p _, Drop p' _ => color_of p = color_of p' | _, _ => True end -> m' = m).
Proof.
  intros P m V. pose proof (prints_move P m V) as H. split; auto. split; [apply (owned P _ _ H)|]. pose proof (read_move_text m V) as R. split; auto.
  intros m' V' E C. pose proof (read_move_text m' V') as R'. rewrite E, R in R'. injection R' as R'.
  destruct m as [f t pr|p t], m' as [f' t' pr'|p' t']; cbn [as_usi] in R'; try discriminate; injection R'; intros; subst; auto.
  f_equal. destruct V as [V _], V' as [V' _]. rewrite <- (piece_of_parts p V), <- (piece_of_parts p' V'). congruence.
Qed.
(** C37: a [CompactMove] prints like the [Move] it packs. *)
Lemma c37_compact_pf : forall P c, valid_compact c -> exists m, valid_move m /\ cm_repr c = packed m /\
  prints (fun W K => cm_to_usi P K c) (move_text m) /\
  to_usi_owned P (cm_to_usi P string_sink c) = to_usi_owned P (move_to_usi P string_sink m).
Proof.
  intros P c V. destruct (valid_compact_unpack c V) as [Vm E]. exists (unpack c). split; auto. split; [now rewrite E at 1|].
  pose proof (prints_compact P c V) as H. split; auto. rewrite (owned P _ _ H). symmetry. apply (owned P _ _ (prints_move P _ Vm)).
Qed.

(** ** Sinks *)
(** C38: formatting a value that has USI text fails exactly if the sink fails, after writing a prefix. *)
Lemma c38_usi_pf : forall P,
  (forall c, honest_printer (fun W K => color_to_usi K c) (color_text c)) /\
  (forall k, honest_printer (fun W K => pk_to_usi P K k) (kind_text k)) /\
  (forall p, valid_piece p -> honest_printer (fun W K => piece_to_usi P K p) (piece_text (kind_of p, color_of p))) /\
  (forall s, valid_square s -> honest_printer (fun W K => sq_to_usi P K s) (square_text s)) /\
  (forall m, valid_move m -> honest_printer (fun W K => move_to_usi P K m) (move_text m)) /\
  (forall c, valid_compact c -> exists m, cm_repr c = packed m /\ valid_move m /\ honest_printer (fun W K => cm_to_usi P K c) (move_text m)) /\
  (forall h0 h1, valid_hand h0 -> valid_hand h1 ->
     honest_printer (fun W K => hands_to_usi P K [h0; h1]) (hands_text (fun c k => in_hand (match c with Black => h0 | White => h1 end) k))).
Proof.
  intros P. split; [|split; [|split; [|split; [|split; [|split]]]]]; intros; try apply prints_honest.
  - apply prints_color.
  - apply prints_kind.
  - now apply prints_piece.
  - now apply prints_square.
  - now apply prints_move.
  - destruct (valid_compact_unpack c H) as [Vm E]. exists (unpack c). split; [now rewrite E at 1|]. split; auto. now apply prints_honest, prints_compact.
  - now apply prints_hands.
Qed.
(** C38: the same for SFEN. *)
Lemma c38_sfen_pf : forall P s a, reachable P s -> sees P s a -> honest_printer (fun W K => to_sfen P K s) (sfen_text a).
Proof. intros P s a R S. apply prints_honest. now apply c33_text_pf. Qed.

(** ** Numbers *)
(** C39: every [u8] and [u16] is written in decimal without leading zeros, to every sink; there is exactly one such text. *)
Lemma c39_decimal_pf : forall P n,
  (is_u8 n -> exists t, canonical_decimal t n /\ prints (fun W K => write_u8 P K n) t /\ honest_printer (fun W K => write_u8 P K n) t) /\
  (is_u16 n -> exists t, canonical_decimal t n /\ prints (fun W K => write_u16 P K n) t /\ honest_printer (fun W K => write_u16 P K n) t) /\
  (forall t t', canonical_decimal t n -> canonical_decimal t' n -> t = t').
Proof.
  intros P n. split; [|split].
  - intros H. exists (decimal n). split; [apply decimal_canonical|]. split; [now apply prints_u8|]. apply prints_honest. now apply prints_u8.
  - intros H. exists (decimal n). split; [apply decimal_canonical|]. split; [now apply prints_u16|]. apply prints_honest. now apply prints_u16.
  - intros t t' H H'. now rewrite (canonical_unique t n H), (canonical_unique t' n H').
Qed.
(** C39: the numbers the SFEN specification uses are canonical decimals. *)
Lemma c39_in_sfen_pf : forall n, canonical_decimal (decimal n) n.
Proof. exact decimal_canonical. Qed.
