(** Property theorems C33-C39: USI and SFEN text *)
From Verif Require Import TSfen.
From Verif Require Import LSample.

(** C33: [to_sfen] writes exactly the standard SFEN text, to every sink. *)
Theorem c33_text : forall P s a, reachable P s -> sees P s a ->
  prints (fun W K => to_sfen P K s) (sfen_text a) /\
  to_sfen_owned P s = Ret (sfen_text a) /\
  (forall p, inner p = s -> pos_to_sfen_owned P p = Ret (sfen_text a)).
Proof. exact c33_text_pf. Qed.
Print Assumptions c33_text.
Example c33_text_ex : reachable Debug pos1 /\ sees Debug pos1 (abs pos1) /\
  to_sfen_owned Debug pos1 = Ret (bytes "lnsgkg1nl/1r5s1/pppppp1pp/6p2/4B4/2Pb5/PP1PPPPPP/7R1/LNSGKGSNL b - 7") /\
  to_sfen_owned Release pos2 = Ret (bytes "8R/9/9/9/9/9/9/4K4/9 w R 1") /\
  sfen_text a_opening = bytes "lnsgkgsnl/1r5b1/ppppppppp/9/9/9/PPPPPPPPP/1B5R1/LNSGKGSNL b - 1".
Proof. split; [apply pos1_reachable|]. split; [apply sees_abs, (reachable_wf Debug), pos1_reachable|]. vm_compute. repeat split. Qed.

(** C33: a reader of the SFEN grammar recovers the board, the side to move, the hands and the ply number. *)
Theorem c33_reads_back : forall P s a, reachable P s -> sees P s a ->
  exists t r, to_sfen_owned P s = Ret t /\ read_sfen t = Some r /\
    f_side r = side_to_move s /\ f_ply r = ply s /\
    (forall sq, valid_square sq -> f_board r sq = a_board a sq) /\
    (forall c k, In k hand_kinds -> f_hand r c k = a_hand a c k).
Proof. exact c33_reads_back_pf. Qed.
Print Assumptions c33_reads_back.
Example c33_reads_back_ex : reachable Debug pos1 /\ sees Debug pos1 (abs pos1) /\
  match read_sfen (bytes "8R/9/9/4+p4/9/9/9/4K4/9 w R2b10p 300") with
  | Some r => f_side r = White /\ f_ply r = 300 /\ f_board r (square_at 1 1) = Some (Rook, Black) /\
              f_board r (square_at 5 4) = Some (ProPawn, White) /\ f_hand r White Bishop = 2 /\ f_hand r White Pawn = 10
  | None => False end /\
  (* the reader is strict *)
  read_sfen (bytes "8R/9/9/45/9/9/9/4K4/9 w R 1") = None /\ read_sfen (bytes "8R/9/9/9/9/9/9/4K4/9 w RR 1") = None /\
  read_sfen (bytes "8R/9/9/9/9/9/9/4K4/9 w 1R 1") = None /\ read_sfen (bytes "8R/9/9/9/9/9/9/4K4/9 w R 01") = None /\
  read_sfen (bytes "8R/9/9/9/9/9/9/4K4 w R 1") = None.
Proof. split; [apply pos1_reachable|]. split; [apply sees_abs, (reachable_wf Debug), pos1_reachable|]. vm_compute. repeat split. Qed.

(** C33: two positions have the same SFEN text exactly if they have the same side to move, ply number, board and hands. *)
Theorem c33_same_text : forall P s s' a a', reachable P s -> reachable P s' -> sees P s a -> sees P s' a' ->
  (to_sfen_owned P s = to_sfen_owned P s' <->
   side_to_move s = side_to_move s' /\ ply s = ply s' /\
   (forall sq, valid_square sq -> piece_at P s sq = piece_at P s' sq) /\
   (forall c k, In k hand_kinds -> a_hand a c k = a_hand a' c k)).
Proof. exact c33_same_text_pf. Qed.
Print Assumptions c33_same_text.
Example c33_same_text_ex : reachable Debug pos1 /\ reachable Debug pos2 /\
  sees Debug pos1 (abs pos1) /\ sees Debug pos2 (abs pos2) /\ to_sfen_owned Debug pos1 <> to_sfen_owned Debug pos2.
Proof.
  split; [apply pos1_reachable|]. split; [apply pos2_reachable|]. split; [apply sees_abs, (reachable_wf Debug), pos1_reachable|].
  split; [apply sees_abs, (reachable_wf Debug), pos2_reachable|]. vm_compute. discriminate.
Qed.

(** C34: [to_sfen_c] writes at most 139 bytes, whatever has been played. *)
Theorem c34_in_play : forall P s ptr, played P s ->
  (exists log, to_sfen_c P s ptr = Ret log /\ len log <= 139) /\
  (forall p, inner p = s -> exists log, pos_to_sfen_c P p ptr = Ret log /\ len log <= 139).
Proof. exact c34_in_play_pf. Qed.
Print Assumptions c34_in_play.
Example c34_in_play_ex : played Debug pos1 /\ returns (to_sfen_c Debug pos1 1000) (fun log => N.of_nat (length log) =? 69) = true.
Proof. split; [apply pos1_played|]. vm_compute. reflexivity. Qed.

(** C34: the exact maximum in play is 137 bytes: it is never exceeded, and a game reaches it. *)
Theorem c34_exact_maximum : forall P ptr,
  (forall s, played P s -> exists log, to_sfen_c P s ptr = Ret log /\ len log <= 137) /\
  (exists s log, played P s /\ to_sfen_c P s ptr = Ret log /\ len log = 137).
Proof. exact c34_exact_maximum_pf. Qed.
Print Assumptions c34_exact_maximum.
Example c34_exact_maximum_ex : plain the_startpos spread = Some spread_pos /\
  to_sfen_owned Debug spread_pos = Ret (bytes "1+P1+P1+P1+P1/1+L1+n1+N1+B1/1+R1+N1+P1+P1/1+n1+p1+p1+p1/1+l1+r1+b1+p1/1+s1+S1+p1+P1/1+s1+S1k1K1/1+l1+L1+p1+P1/1+p1+p1+p1+P1 b 2G2g 37").
Proof. vm_compute. split; reflexivity. Qed.

(** C35: the documented bound fails: a position built by safe calls whose SFEN takes 236 bytes.
    Full statement: [forall P s ptr, reachable P s -> exists log, to_sfen_c P s ptr = Ret log /\ len log <= 139]. *)
Theorem c35_139_bytes_refuted : forall P ptr, exists s log,
  reachable P s /\ to_sfen_c P s ptr = Ret log /\ len log = 236 /\ ~ len log <= 139.
Proof. exact c35_139_bytes_refuted_pf. Qed.
Print Assumptions c35_139_bytes_refuted.
Example c35_139_bytes_refuted_ex : reachable Debug stuffed_pos /\ returns (to_sfen_c Debug stuffed_pos 0) (fun log => N.of_nat (length log) =? 236) = true.
Proof. split; [apply stuffed_reachable|]. vm_compute. reflexivity. Qed.

(** C35, what does hold for every position: at most 236 bytes (attained, see above).
    Full statement: [forall P s ptr, reachable P s -> exists log, to_sfen_c P s ptr = Ret log /\ len log <= 139]. *)
Theorem c35_at_most_236_partial : forall P s ptr, reachable P s ->
  exists log, to_sfen_c P s ptr = Ret log /\ len log <= 236.
Proof. exact c35_at_most_236_partial_pf. Qed.
Print Assumptions c35_at_most_236_partial.
Example c35_at_most_236_partial_ex : reachable Release pos2 /\ returns (to_sfen_c Release pos2 5) (fun log => N.of_nat (length log) =? 27) = true.
Proof. split; [apply pos2_reachable|]. vm_compute. reflexivity. Qed.

(** C35, the documented bound holds for every position, edited or not, with no more pieces than a full set (kings aside).
    Full statement: [forall P s ptr, reachable P s -> exists log, to_sfen_c P s ptr = Ret log /\ len log <= 139]. *)
Theorem c35_full_set_partial : forall P s a ptr, reachable P s -> sees P s a -> within_a_set a ->
  exists log, to_sfen_c P s ptr = Ret log /\ len log <= 139.
Proof. exact c35_full_set_partial_pf. Qed.
Print Assumptions c35_full_set_partial.
Example c35_full_set_partial_ex : reachable Debug pos2 /\ sees Debug pos2 (abs pos2) /\ within_a_set (abs pos2).
Proof.
  split; [apply pos2_reachable|]. split; [apply sees_abs, (reachable_wf Debug), pos2_reachable|].
  assert (E : forallb (fun k => on_board_count (abs pos2) k + a_hand (abs pos2) Black k + a_hand (abs pos2) White k <=? full_set k) hand_kinds = true)
    by (vm_compute; reflexivity).
  intros k K. rewrite forallb_forall in E. apply N.leb_le, E, K.
Qed.

(** C36: [to_sfen_c] leaves the SFEN text as a C string at [ptr], and changes nothing outside its bytes and the NUL. *)
Theorem c36_c_string : forall P s ptr, reachable P s -> exists t log,
  to_sfen_owned P s = Ret t /\ to_sfen_c P s ptr = Ret log /\
  forall m, c_string (pokes m log) ptr t /\ (forall x, x < ptr \/ ptr + len t < x -> pokes m log x = m x).
Proof. exact c36_c_string_pf. Qed.
Print Assumptions c36_c_string.
Example c36_c_string_ex : reachable Debug pos2 /\
  returns (to_sfen_c Debug pos2 100) (fun log =>
    let m := pokes (fun _ => 77) log in
    list_eqb N.eqb (map m [99; 100; 101; 102; 125; 126; 127]) [77; byte "8"; byte "R"; byte "/"; byte "1"; 0; 77]) = true.
Proof. split; [apply pos2_reachable|]. vm_compute. reflexivity. Qed.

(** C36: each byte is stored exactly once, in ascending order, and [Position] does the same. *)
Theorem c36_stores : forall P s ptr, reachable P s -> exists t log,
  to_sfen_owned P s = Ret t /\ to_sfen_c P s ptr = Ret log /\
  map snd log = t ++ [0] /\ map fst log = map (fun i => ptr + N.of_nat i) (seq 0 (length t + 1)) /\
  (forall p, inner p = s -> pos_to_sfen_c P p ptr = Ret log).
Proof. exact c36_stores_pf. Qed.
Print Assumptions c36_stores.
Example c36_stores_ex : reachable Debug pos2 /\
  to_sfen_c Debug pos2 100 = Ret (combine (map (fun i => 100 + N.of_nat i) (seq 0 27)) (bytes "8R/9/9/9/9/9/9/4K4/9 w R 1" ++ [0])).
Proof. split; [apply pos2_reachable|]. vm_compute. reflexivity. Qed.

(** C37: the USI text of colors, kinds, pieces and squares, and reading it back. *)
Theorem c37_values : forall P,
  (forall c, prints (fun W K => color_to_usi K c) (color_text c) /\ to_usi_owned P (color_to_usi string_sink c) = Ret (color_text c) /\
     read_color (color_text c) = Some c) /\
  (forall k, prints (fun W K => pk_to_usi P K k) (kind_text k) /\ to_usi_owned P (pk_to_usi P string_sink k) = Ret (kind_text k) /\
     read_piece (kind_text k) = Some (k, Black)) /\
  (forall p, valid_piece p -> prints (fun W K => piece_to_usi P K p) (piece_text (kind_of p, color_of p)) /\
     to_usi_owned P (piece_to_usi P string_sink p) = Ret (piece_text (kind_of p, color_of p)) /\
     option_map the_piece (read_piece (piece_text (kind_of p, color_of p))) = Some p) /\
  (forall s, valid_square s -> prints (fun W K => sq_to_usi P K s) (square_text s) /\
     to_usi_owned P (sq_to_usi P string_sink s) = Ret (square_text s) /\ read_square (square_text s) = Some s).
Proof. exact c37_values_pf. Qed.
Print Assumptions c37_values.
Example c37_values_ex : valid_piece (piece_of ProRook White) /\ valid_square (square_at 7 6) /\
  to_usi_owned Debug (piece_to_usi Debug string_sink (piece_of ProRook White)) = Ret (bytes "+r") /\
  to_usi_owned Debug (sq_to_usi Debug string_sink (square_at 7 6)) = Ret (bytes "7f") /\
  to_usi_owned Release (pk_to_usi Release string_sink Knight) = Ret (bytes "N") /\
  to_usi_owned Release (color_to_usi string_sink White) = Ret (bytes "w").
Proof. split; [apply piece_of_valid|]. split; [split; discriminate|]. vm_compute. repeat split. Qed.

(** C37: the USI text of a [Move], and reading it back; it tells everything but the color of a dropped piece. *)
Theorem c37_moves : forall P m, valid_move m ->
  prints (fun W K => move_to_usi P K m) (move_text m) /\
  to_usi_owned P (move_to_usi P string_sink m) = Ret (move_text m) /\
  read_move (move_text m) = Some (as_usi m) /\
  (forall m', valid_move m' -> move_text m' = move_text m ->
     match m, m' with Drop p _, Drop p' _ => color_of p = color_of p' | _, _ => True end -> m' = m).
Proof. exact c37_moves_pf. Qed.
Print Assumptions c37_moves.
Example c37_moves_ex : valid_move (nm 8 8 2 2 true) /\ valid_move (Drop (piece_of Pawn White) (square_at 5 5)) /\
  to_usi_owned Debug (move_to_usi Debug string_sink (nm 8 8 2 2 true)) = Ret (bytes "8h2b+") /\
  to_usi_owned Debug (move_to_usi Debug string_sink (nm 7 7 7 6 false)) = Ret (bytes "7g7f") /\
  to_usi_owned Debug (move_to_usi Debug string_sink (Drop (piece_of Pawn White) (square_at 5 5))) = Ret (bytes "P*5e") /\
  read_move (bytes "8h2b+") = Some (UNormal (square_at 8 8) (square_at 2 2) true) /\ read_move (bytes "8h0b") = None.
Proof. split; [repeat split; discriminate|]. split; [split; [apply piece_of_valid|split; discriminate]|]. vm_compute. repeat split. Qed.

(** C37: a [CompactMove] prints like the [Move] it packs. *)
Theorem c37_compact : forall P c, valid_compact c -> exists m, valid_move m /\ cm_repr c = packed m /\
  prints (fun W K => cm_to_usi P K c) (move_text m) /\
  to_usi_owned P (cm_to_usi P string_sink c) = to_usi_owned P (move_to_usi P string_sink m).
Proof. exact c37_compact_pf. Qed.
Print Assumptions c37_compact.
Example c37_compact_ex : valid_compact (CompactMove (packed (nm 8 8 2 2 true))) /\
  to_usi_owned Debug (cm_to_usi Debug string_sink (CompactMove (packed (nm 8 8 2 2 true)))) = Ret (bytes "8h2b+").
Proof. split; [|vm_compute; reflexivity]. eexists. split; [|reflexivity]. repeat split; discriminate. Qed.

(** C38: formatting a value that has USI text fails exactly if the sink fails, after writing a prefix. *)
Theorem c38_usi : forall P,
  (forall c, honest_printer (fun W K => color_to_usi K c) (color_text c)) /\
  (forall k, honest_printer (fun W K => pk_to_usi P K k) (kind_text k)) /\
  (forall p, valid_piece p -> honest_printer (fun W K => piece_to_usi P K p) (piece_text (kind_of p, color_of p))) /\
  (forall s, valid_square s -> honest_printer (fun W K => sq_to_usi P K s) (square_text s)) /\
  (forall m, valid_move m -> honest_printer (fun W K => move_to_usi P K m) (move_text m)) /\
  (forall c, valid_compact c -> exists m, cm_repr c = packed m /\ valid_move m /\ honest_printer (fun W K => cm_to_usi P K c) (move_text m)) /\
  (forall h0 h1, valid_hand h0 -> valid_hand h1 ->
     honest_printer (fun W K => hands_to_usi P K [h0; h1]) (hands_text (fun c k => in_hand (match c with Black => h0 | White => h1 end) k))).
Proof. exact c38_usi_pf. Qed.
Print Assumptions c38_usi.
(** a sink that accepts two strings and then fails *)
Example c38_usi_ex :
  let K := Sink (fun (w : list (list N)) s => if (length w <? 2)%nat then (w ++ [s], true) else (w, false)) in
  move_to_usi Debug K (nm 8 8 2 2 true) [] = Ret ([bytes "8"; bytes "h"], false) /\
  move_to_usi Debug (recording K) (nm 8 8 2 2 true) ([], []) =
    Ret (([bytes "8"; bytes "h"], [(bytes "8", true); (bytes "h", true); (bytes "2", false)]), false).
Proof. vm_compute. split; reflexivity. Qed.

(** C38: the same for SFEN. *)
Theorem c38_sfen : forall P s a, reachable P s -> sees P s a -> honest_printer (fun W K => to_sfen P K s) (sfen_text a).
Proof. exact c38_sfen_pf. Qed.
Print Assumptions c38_sfen.
Example c38_sfen_ex : reachable Debug pos2 /\ sees Debug pos2 (abs pos2) /\
  let K := Sink (fun (w : list N) s => if (length w <? 25)%nat then (w ++ s, true) else (w, false)) in
  to_sfen Debug K pos2 [] = Ret (bytes "8R/9/9/9/9/9/9/4K4/9 w R ", false).
Proof. split; [apply pos2_reachable|]. split; [apply sees_abs, (reachable_wf Debug), pos2_reachable|]. vm_compute. reflexivity. Qed.

(** C39: every [u8] and [u16] is written in decimal without leading zeros, to every sink; there is exactly one such text. *)
Theorem c39_decimal : forall P n,
  (is_u8 n -> exists t, canonical_decimal t n /\ prints (fun W K => write_u8 P K n) t /\ honest_printer (fun W K => write_u8 P K n) t) /\
  (is_u16 n -> exists t, canonical_decimal t n /\ prints (fun W K => write_u16 P K n) t /\ honest_printer (fun W K => write_u16 P K n) t) /\
  (forall t t', canonical_decimal t n -> canonical_decimal t' n -> t = t').
Proof. exact c39_decimal_pf. Qed.
Print Assumptions c39_decimal.
Example c39_decimal_ex : is_u8 205 /\ is_u16 10030 /\
  to_usi_owned Debug (write_u8 Debug string_sink 205) = Ret (bytes "205") /\
  to_usi_owned Debug (write_u16 Debug string_sink 10030) = Ret (bytes "10030") /\
  to_usi_owned Release (write_u16 Release string_sink 0) = Ret (bytes "0").
Proof. vm_compute. repeat split. Qed.

(** C39: the numbers the SFEN specification uses are canonical decimals. *)
Theorem c39_in_sfen : forall n, canonical_decimal (decimal n) n.
Proof. exact c39_in_sfen_pf. Qed.
Print Assumptions c39_in_sfen.
Example c39_in_sfen_ex : decimal 65535 = bytes "65535".
Proof. reflexivity. Qed.
