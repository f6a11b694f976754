(** Property theorems C51-C53: setting up positions, the range of SFEN, taking moves back *)
From Verif Require Import TEdit.
From Verif Require Import LSample.

(** C51: from every reachable position, 85 edits set up every board, hands, side and nonzero ply; none is refused, the last
    move stays, and [king_position] names the king of every player who has exactly one. *)
Theorem c51_set_up : forall P s r, reachable P s -> storable r -> f_ply r <> 0 ->
  exists os s', length os = 85%nat /\ forallb is_edit os = true /\ Forall valid_op os /\
    run_ops P s os = Ret (s', repeat true 85) /\ shows P s' r /\ last_move P s' = last_move P s /\
    (forall c sq, only_king (f_board r) c sq -> king_position P s' c = Ret (Some sq)) /\
    (forall c, no_king (f_board r) c -> king_position P s' c = king_position P s c).
Proof. exact c51_set_up_pf. Qed.
Print Assumptions c51_set_up.
Example c51_set_up_ex : reachable Debug pos1 /\
  match read_sfen (bytes "4k4/9/4G4/9/9/9/9/9/9 b G2r16p 77") with
  | Some r => storable r /\ f_ply r <> 0 /\ only_king (f_board r) White (square_at 5 1) /\ no_king (f_board r) Black
  | None => False end.
Proof.
  split; [apply pos1_reachable|]. set (q := read_sfen _). vm_compute in q. subst q. cbv iota. split.
  { split; [reflexivity|]. intros c k K. unfold hand_kinds in K. cbn [In] in K. destruct c; decompose [or] K; try subst k; try contradiction; reflexivity. }
  split; [discriminate|]. split.
  - split; [split; discriminate|]. intros t V. apply valid_square_In in V. unfold squares in V. vm_compute in V.
    split; intros H; decompose [or] V; subst; try contradiction; try reflexivity; try discriminate.
  - intros t V. apply valid_square_In in V. vm_compute in V. decompose [or] V; subst; try contradiction; discriminate.
Qed.

(** C51: so every such setting is the content of a reachable position that was never played on. *)
Theorem c51_every_setting : forall P r, storable r -> f_ply r <> 0 ->
  exists s, reachable P s /\ shows P s r /\ last_move P s = Ret None /\
    (forall c sq, only_king (f_board r) c sq -> king_position P s c = Ret (Some sq)) /\
    (forall c, no_king (f_board r) c -> king_position P s c = Ret None).
Proof. exact c51_every_setting_pf. Qed.
Print Assumptions c51_every_setting.
Example c51_every_setting_ex :
  match read_sfen (bytes "4k4/9/4G4/9/9/9/9/9/9 b G2r16p 77") with
  | Some r => storable r /\ f_ply r = 77 /\ f_hand r White Pawn = 16
  | None => False end.
Proof.
  set (q := read_sfen _). vm_compute in q. subst q. cbv iota. split; [|split; reflexivity].
  split; [reflexivity|]. intros c k K. unfold hand_kinds in K. cbn [In] in K. destruct c; decompose [or] K; try subst k; try contradiction; reflexivity.
Qed.

(** C51: a ply of 0, which [ply_set] refuses, is within reach too, by a move from ply 65535. *)
Theorem c51_ply_zero : forall P r, storable r -> exists s, reachable P s /\ shows P s r.
Proof. exact c51_ply_zero_pf. Qed.
Print Assumptions c51_ply_zero.
Example c51_ply_zero_ex :
  match read_sfen (bytes "9/9/9/9/9/9/9/9/9 w - 0") with
  | Some r => storable r /\ f_ply r = 0
  | None => False end.
Proof.
  set (q := read_sfen _). vm_compute in q. subst q. cbv iota. split; [|reflexivity].
  split; [reflexivity|]. intros c k K. unfold hand_kinds in K. cbn [In] in K. destruct c; decompose [or] K; try subst k; try contradiction; reflexivity.
Qed.

(** C53: an accepted move is taken back by editing: put back the pieces, the mover's hand, the side and the ply. No edit is
    refused and everything but the last move is as before, provided [king_position] was right about a king that moved and
    the ply was not 0 (which [ply_set] refuses). *)
Theorem c53_take_back : forall P s a m s' h, reachable P s -> sees P s a -> valid_move m ->
  make_move P m s = Ret (s', Some tt) -> ply s <> 0 -> hand_of_a_player P s (side_to_move s) = Ret h ->
  (forall from to pr, m = Normal from to pr -> a_board a from = Some (King, a_side a) -> a_king a (a_side a) = Some from) ->
  exists s'' bs, run_ops P s' (take_back a m h) = Ret (s'', bs) /\ forallb (fun b => b) bs = true /\
    forallb is_edit (take_back a m h) = true /\ sees P s'' (but_last a m).
Proof. exact c53_take_back_pf. Qed.
Print Assumptions c53_take_back.
Example c53_take_back_ex : reachable Debug pos1 /\ sees Debug pos1 (abs pos1) /\ valid_move (nm 5 5 6 6 true) /\
  returns (make_move Debug (nm 5 5 6 6 true) pos1) (fun r => match snd r with Some _ => true | None => false end) = true /\
  (r <- make_move Debug (nm 5 5 6 6 true) pos1;;
   h <- hand_of_a_player Debug pos1 Black;;
   q <- run_ops Debug (fst r) (take_back (abs pos1) (nm 5 5 6 6 true) h);;
   f <- to_sfen_owned Debug (fst r);;
   t <- to_sfen_owned Debug (fst q);; Ret (snd q, f, t)) =
  Ret ([true; true; true; true; true],
       bytes "lnsgkg1nl/1r5s1/pppppp1pp/6p2/9/2P+B5/PP1PPPPPP/7R1/LNSGKGSNL w B 8",
       bytes "lnsgkg1nl/1r5s1/pppppp1pp/6p2/4B4/2Pb5/PP1PPPPPP/7R1/LNSGKGSNL b - 7").
Proof.
  split; [apply pos1_reachable|]. split; [apply sees_abs, (reachable_wf Debug), pos1_reachable|].
  split; [split; split; discriminate|]. split; vm_compute; reflexivity.
Qed.

(** C53: in play the proviso on kings always holds. *)
Theorem c53_in_play : forall P s a m s' h, played P s -> sees P s a -> valid_move m ->
  make_move P m s = Ret (s', Some tt) -> ply s <> 0 -> hand_of_a_player P s (side_to_move s) = Ret h ->
  exists s'' bs, run_ops P s' (take_back a m h) = Ret (s'', bs) /\ forallb (fun b => b) bs = true /\ sees P s'' (but_last a m).
Proof. exact c53_in_play_pf. Qed.
Print Assumptions c53_in_play.
Example c53_in_play_ex : played Release pos1 /\ valid_move (nm 5 9 5 8 false) /\
  returns (make_move Release (nm 5 9 5 8 false) pos1) (fun r => match snd r with Some _ => true | None => false end) = true /\
  ply pos1 = 7 /\
  (r <- make_move Release (nm 5 9 5 8 false) pos1;;
   h <- hand_of_a_player Release pos1 Black;;
   q <- run_ops Release (fst r) (take_back (abs pos1) (nm 5 9 5 8 false) h);;
   a <- king_position Release (fst r) Black;; b <- king_position Release (fst q) Black;; Ret (a, b)) =
  Ret (Some (square_at 5 8), Some (square_at 5 9)).
Proof. split; [apply pos1_played|]. split; [split; split; discriminate|]. repeat split; vm_compute; reflexivity. Qed.

(** C53: hence nothing is lost: two reachable positions with the same pieces on the squares of the move, from which the move leads to
    the same position, have the same side, ply, board and hands. *)
Theorem c53_determined : forall P s1 s2 a1 a2 m s', reachable P s1 -> reachable P s2 -> sees P s1 a1 -> sees P s2 a2 -> valid_move m ->
  make_move P m s1 = Ret (s', Some tt) -> make_move P m s2 = Ret (s', Some tt) ->
  match m with Normal from to _ => a_board a1 from = a_board a2 from /\ a_board a1 to = a_board a2 to | Drop _ _ => True end ->
  a_side a1 = a_side a2 /\ a_ply a1 = a_ply a2 /\
  (forall sq, valid_square sq -> a_board a1 sq = a_board a2 sq) /\
  (forall c k, In k hand_kinds -> a_hand a1 c k = a_hand a2 c k).
Proof. exact c53_determined_pf. Qed.
Print Assumptions c53_determined.
(* a transposition: 7g7f 3c3d 2g2f and 2g2f 3c3d 7g7f, then 8c8d *)
Example c53_determined_ex :
  let s1 := fst (do_ops the_startpos order1) in let s2 := fst (do_ops the_startpos order2) in
  reachable Debug s1 /\ reachable Debug s2 /\ last_move Debug s1 <> last_move Debug s2 /\
  make_move Debug (nm 8 3 8 4 false) s1 = make_move Debug (nm 8 3 8 4 false) s2 /\
  returns (make_move Debug (nm 8 3 8 4 false) s1) (fun r => match snd r with Some _ => true | None => false end) = true.
Proof.
  cbv zeta. pose proof (played_reachable Debug _ (start_played Debug)) as R.
  assert (V1 : Forall valid_op order1) by (unfold order1, nm; cbn [map]; repeat apply Forall_cons; try apply Forall_nil; cbn [valid_op valid_move]; repeat split; discriminate).
  assert (V2 : Forall valid_op order2) by (unfold order2, nm; cbn [map]; repeat apply Forall_cons; try apply Forall_nil; cbn [valid_op valid_move]; repeat split; discriminate).
  split; [apply (reachable_run Debug the_startpos order1 _ [true; true; true] R V1); vm_compute; reflexivity|].
  split; [apply (reachable_run Debug the_startpos order2 _ [true; true; true] R V2); vm_compute; reflexivity|].
  split; [vm_compute; discriminate|]. split; vm_compute; reflexivity.
Qed.

(** C52: every SFEN text with storable numbers is the SFEN of some reachable position, up to the order of the pieces in hand. *)
Theorem c52_every_text : forall P t r, read_sfen t = Some r -> storable r ->
  exists s t' b c h h' n, reachable P s /\ shows P s r /\ to_sfen_owned P s = Ret t' /\ fields t b c h n /\ fields t' b c h' n.
Proof. exact c52_every_text_pf. Qed.
Print Assumptions c52_every_text.
(* the hands are not in order: the text is read, and written back with the hands in order *)
Example c52_every_text_ex :
  match read_sfen (bytes "8R/9/9/4+p4/9/9/9/4K4/9 w p2b10P 300") with
  | Some r => storable r /\ f_hand r White Pawn = 1 /\ f_hand r Black Pawn = 10
  | None => False end /\
  fields (bytes "8R/9/9/4+p4/9/9/9/4K4/9 w p2b10P 300") (bytes "8R/9/9/4+p4/9/9/9/4K4/9") (bytes "w") (bytes "p2b10P") (bytes "300").
Proof.
  split.
  - set (q := read_sfen _). vm_compute in q. subst q. cbv iota. split; [|split; reflexivity].
    split; [reflexivity|]. intros c k K. unfold hand_kinds in K. cbn [In] in K. destruct c; decompose [or] K; try subst k; try contradiction; reflexivity.
  - split; [reflexivity|]. vm_compute. repeat split; intuition discriminate.
Qed.

(** C52: the texts written by [to_sfen] are exactly those: accepted by the reader, with storable numbers, hands in order. *)
Theorem c52_range : forall P t, (exists s, reachable P s /\ to_sfen_owned P s = Ret t) <->
  (exists r b c h n, read_sfen t = Some r /\ storable r /\ fields t b c h n /\ in_order h).
Proof. exact c52_range_pf. Qed.
Print Assumptions c52_range.
Example c52_range_ex :
  (exists s, reachable Debug s /\ to_sfen_owned Debug s = Ret (bytes "8R/9/9/9/9/9/9/4K4/9 w R 1")) /\
  in_order (bytes "R10P2bp") /\ ~ in_order (bytes "p2b10P") /\ ~ in_order (bytes "").
Proof.
  split; [exists pos2; split; [apply pos2_reachable|vm_compute; reflexivity]|].
  split; [right; split; [discriminate|reflexivity]|]. split; intros [H|[H K]]; try discriminate; now apply H.
Qed.
