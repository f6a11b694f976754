(** Property theorems C78: game records as USI text *)
From Verif Require Import TRecord.
From Verif Require Import SpecSfen SpecEdit LPiece LSample LRefine.

(** C78: writing the record of a game and reading it gives the same [Position] back, if the text keeps the initial position. *)
Theorem c78_round_trip : forall P p0 s0 a0 xs, created P p0 s0 -> sees P s0 a0 -> writes_down a0 -> Forall valid_call xs ->
  exists p bs t, pos_run P p0 xs = Ret (p, bs) /\ record_text P p = Ret t /\ read_record P t = Ret (Some p).
Proof. exact c78_round_trip_pf. Qed.
Print Assumptions c78_round_trip.
Example c78_round_trip_ex :
  created Debug (arbitrary_position the_startpos) the_startpos /\ sees Debug the_startpos a_opening /\ writes_down a_opening /\ Forall valid_call (map PMove game1) /\
  returns (pos_run Debug (arbitrary_position the_startpos) (map PMove game1)) (fun x => returns (record_text Debug (fst x)) (fun t => list_eqb N.eqb t
    (bytes "sfen lnsgkgsnl/1r5b1/ppppppppp/9/9/9/PPPPPPPPP/1B5R1/LNSGKGSNL b - 1 moves 7g7f 3c3d 8h2b+ 3a2b B*5e B*6f"))) = true.
Proof.
  split; [constructor; exists the_startpos, [], []; split; [right; apply startpos_ok|]; split; [constructor|reflexivity]|].
  split; [apply sees_iff; [apply startpos_wf|apply abs_startpos]|]. split; [exact opening_writes_down|].
  split; [apply Forall_map; exact game1_valid|vm_compute; reflexivity].
Qed.

(** C78: from the opening position both forms of the text do. *)
Theorem c78_startpos : forall P p0 xs, pos_startpos P = Ret p0 -> Forall valid_call xs ->
  exists p bs t u, pos_run P p0 xs = Ret (p, bs) /\ record_text P p = Ret t /\ startpos_text P p = Ret u /\
    read_record P t = Ret (Some p) /\ read_record P u = Ret (Some p).
Proof. exact c78_startpos_pf. Qed.
Print Assumptions c78_startpos.
Example c78_startpos_ex : Forall valid_call (map PMove game1) /\
  returns (p <- pos_startpos Debug;; pos_run Debug p (map PMove game1)) (fun x => returns (startpos_text Debug (fst x)) (fun t =>
    list_eqb N.eqb t (bytes "startpos moves 7g7f 3c3d 8h2b+ 3a2b B*5e B*6f") &&
    returns (read_record Debug t) (fun o => match o with Some q => pos_eqb q (fst x) && negb (pos_eqb q (arbitrary_position the_startpos)) | None => false end))) = true.
Proof.
  split; [apply Forall_map; exact game1_valid|].
  vm_compute. reflexivity.
Qed.

(** C78: the reader never panics, whatever the bytes; what it accepts is written again, and read again, as the same [Position]. *)
Theorem c78_reader : forall P t, read_record P t = Ret None \/
  exists q t', read_record P t = Ret (Some q) /\ record_text P q = Ret t' /\ read_record P t' = Ret (Some q).
Proof. exact c78_reader_pf. Qed.
Print Assumptions c78_reader.
Example c78_reader_ex :
  (* hands in another order: written in the order of the crate *)
  returns (read_record Release (bytes "sfen 7k1/9/7P1/9/9/9/9/9/4K4 b 2PG 1 moves G*2b 2a1b")) (fun o => match o with
    | Some q => returns (record_text Release q) (list_eqb N.eqb (bytes "sfen 7k1/9/7P1/9/9/9/9/9/4K4 b G2P 1 moves G*2b 2a1b")) | None => false end) = true /\
  (* refused: two blanks, no such piece in hand, ply 0, 256 pawns, no SFEN, no word *)
  forallb (fun t => returns (read_record Release t) (fun o => match o with None => true | Some _ => false end))
    [bytes "startpos moves 7g7f  3c3d"; bytes "startpos moves P*5e"; bytes "sfen 9/9/9/9/9/9/9/9/9 b - 0"; bytes "sfen 9/9/9/9/9/9/9/9/9 b 256P 1";
     bytes "sfen 9/9 b - 1"; bytes "startpos 7g7f"; []] = true.
Proof. split; vm_compute; reflexivity. Qed.

(** C78: what an accepted text says: the observers of the initial position show what the SFEN tells, no move was made on it, the kings
    are found, and the moves of the [Position] are those the words tell, each accepted in turn. *)
Theorem c78_meaning : forall P t q, read_record P t = Ret (Some q) ->
  exists start vs, (t = start /\ vs = [] \/ t = join (bytes " ") (start :: bytes "moves" :: vs)) /\
    tell vs (moves q) /\ plays P (arbitrary_position (initial_position q)) (moves q) q /\
    (start = bytes "startpos" /\ pos_startpos P = Ret (arbitrary_position (initial_position q)) \/
     exists x r, start = bytes "sfen " ++ x /\ read_sfen x = Some r /\ shows P (initial_position q) r /\ last_move P (initial_position q) = Ret None /\
       (forall c sq, only_king (f_board r) c sq -> king_position P (initial_position q) c = Ret (Some sq)) /\
       (forall c, no_king (f_board r) c -> king_position P (initial_position q) c = Ret None)).
Proof. exact c78_meaning_pf. Qed.
Print Assumptions c78_meaning.
Example c78_meaning_ex :
  returns (read_record Debug (bytes "sfen 7k1/9/7P1/9/9/9/9/9/9 b G 1 moves G*2b")) (fun o => match o with
    | Some q => list_eqb move_eqb (moves q) [Drop (piece_of Gold Black) (square_at 2 2)] && (ply (initial_position q) =? 1) && (ply (inner q) =? 2) &&
        returns (king_position Debug (initial_position q) White) (fun k => match k with Some sq => sq_repr sq =? 10 | None => false end) &&
        returns (king_position Debug (initial_position q) Black) (fun k => match k with Some _ => false | None => true end)
    | None => false end) = true.
Proof. vm_compute. reflexivity. Qed.

(** C78: after the text of an initial position that it keeps, the reader accepts exactly the words that tell moves [make_move] accepts
    one after the other. *)
Theorem c78_accepts : forall P s0 a0 t ws q, reachable P s0 -> sees P s0 a0 -> writes_down a0 -> to_sfen_owned P s0 = Ret t ->
  Forall (fun w => ~ In 32 w) ws ->
  (read_record P (with_moves [bytes "sfen"; t] ws) = Ret (Some q) <-> exists ms, tell ws ms /\ plays P (arbitrary_position s0) ms q).
Proof. exact c78_accepts_pf. Qed.
Print Assumptions c78_accepts.
Example c78_accepts_ex : reachable Debug the_startpos /\ sees Debug the_startpos a_opening /\ writes_down a_opening /\ Forall (fun w => ~ In 32 w) [bytes "7g7f"; bytes "3c3d"; bytes "8h2b+"] /\
  returns (to_sfen_owned Debug the_startpos) (fun t =>
    returns (read_record Debug (with_moves [bytes "sfen"; t] [bytes "7g7f"; bytes "3c3d"; bytes "8h2b+"])) (fun o => match o with Some q => (length (moves q) =? 3)%nat | None => false end) &&
    returns (read_record Debug (with_moves [bytes "sfen"; t] [bytes "7g7f"; bytes "7f7e"])) (fun o => match o with Some _ => false | None => true end)) = true /\
  tell [bytes "7g7f"; bytes "B*5e"] [nm 7 7 7 6 false; Drop (piece_of Bishop White) (square_at 5 5)].
Proof.
  split; [apply start_reachable|]. split; [apply sees_iff; [apply startpos_wf|apply abs_startpos]|]. split; [exact opening_writes_down|]. split; [repeat constructor; vm_compute; intuition discriminate|].
  split; [vm_compute; reflexivity|]. constructor; [split; [reflexivity|split; split; discriminate]|].
  constructor; [split; [reflexivity|split; [apply piece_of_valid|split; discriminate]]|constructor].
Qed.

(** C78: what the text loses: the last move of an initial position on which moves were made. *)
Theorem c78_last_move_lost : forall P s m, reachable P s -> ply s <> 0 -> last_move P s = Ret (Some m) ->
  exists t q, record_text P (arbitrary_position s) = Ret t /\ read_record P t = Ret (Some q) /\ record_text P q = Ret t /\
    last_move P (initial_position q) = Ret None /\ pos_eqb q (arbitrary_position s) = false.
Proof. exact c78_last_move_lost_pf. Qed.
Print Assumptions c78_last_move_lost.
Example c78_last_move_lost_ex :
  reachable Debug pos1 /\ ply pos1 <> 0 /\ last_move Debug pos1 = Ret (Some (Drop (piece_of Bishop White) (square_at 6 6))).
Proof. split; [apply pos1_reachable|]. split; [vm_compute; discriminate|vm_compute; reflexivity]. Qed.
