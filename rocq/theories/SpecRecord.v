(** Specification of game records as USI text, "sfen <SFEN> moves <move> ..." or "startpos moves <move> ...": a client that writes
    the record of a [Position] using [to_sfen_owned] and [to_usi_owned] only, and a client that reads such texts and makes the
    [Position] by calls to the crate only. The crate has no reader of its own; this is what its users do with it. *)
From Verif Require Import Machine MColor MPieceKind MPiece MSquare MMove MHand MPosition SpecBase SpecPos SpecSfen SpecEdit.

(** ** Writing *)
Fixpoint moves_texts (P : profile) (ms : list move) : res (list (list N)) :=
  match ms with
  | [] => Ret []
  | m :: rest => t <- to_usi_owned P (move_to_usi P string_sink m);; ts <- moves_texts P rest;; Ret (t :: ts)
  end.
(** the word "moves" only if there are any *)
Definition with_moves (start : list (list N)) (ts : list (list N)) : list N :=
  join (bytes " ") (start ++ match ts with [] => [] | _ => bytes "moves" :: ts end).
Definition record_text (P : profile) (p : position) : res (list N) :=
  t <- to_sfen_owned P (initial_position p);;
  ts <- moves_texts P (moves p);;
  Ret (with_moves [bytes "sfen"; t] ts).
Definition startpos_text (P : profile) (p : position) : res (list N) :=
  ts <- moves_texts P (moves p);;
  Ret (with_moves [bytes "startpos"] ts).

(** ** Reading *)
(** the text between blanks; two blanks in a row have an empty text between them *)
Fixpoint cut_from (cur t : list N) : list (list N) :=
  match t with
  | [] => [cur]
  | c :: rest => if c =? 32 then cur :: cut_from [] rest else cut_from (cur ++ [c]) rest
  end.
Definition cut (t : list N) : list (list N) := cut_from [] t.
(** the numbers fit: [u16] for the ply, [u8] for hands *)
Definition fits (r : sfen) : bool :=
  (f_ply r <? 65536) && forallb (fun k => (f_hand r Black k <? 256) && (f_hand r White k <? 256)) hand_kinds.
(** a hand, by adding the pieces one by one *)
Fixpoint add_times (P : profile) (n : nat) (k : piece_kind) (h : hand) : res hand :=
  match n with
  | O => Ret h
  | S n => o <- hand_added P h k;; match o with Some h' => add_times P n k h' | None => Ret h end
  end.
Fixpoint fill (P : profile) (f : piece_kind -> N) (ks : list piece_kind) (h : hand) : res hand :=
  match ks with
  | [] => Ret h
  | k :: rest => h' <- add_times P (N.to_nat (f k)) k h;; fill P f rest h'
  end.
(** a position, by [piece_set] on every square, the setters for hands and side, and [ply_set], which refuses ply 0 *)
Definition put_up (P : profile) (r : sfen) : res (option partial_position) :=
  b <- fill P (f_hand r Black) hand_kinds hand_new;;
  w <- fill P (f_hand r White) hand_kinds hand_new;;
  '(s, oks) <- run_ops P pp_empty
    (map (fun sq => OpPieceSet sq (option_map the_piece (f_board r sq))) squares ++
     [OpHand Black b; OpHand White w; OpSide (f_side r); OpPly (f_ply r)]);;
  Ret (if forallb (fun b => b) oks then Some s else None).
(** a dropped piece is of the side to move *)
Definition as_move (P : profile) (c : color) (u : usi_move) : res move :=
  match u with
  | UNormal from to pr => Ret (Normal from to pr)
  | UDrop k to => x <- piece_new P k c;; Ret (Drop x to)
  end.
Fixpoint play_texts (P : profile) (p : position) (ws : list (list N)) : res (option position) :=
  match ws with
  | [] => Ret (Some p)
  | w :: rest =>
      match read_move w with
      | None => Ret None
      | Some u =>
          m <- as_move P (side_to_move (inner p)) u;;
          '(p', o) <- pos_make_move P p m;;
          match o with None => Ret None | Some _ => play_texts P p' rest end
      end
  end.
Definition read_moves (P : profile) (p : position) (ws : list (list N)) : res (option position) :=
  match ws with
  | [] => Ret (Some p)
  | w :: rest => if list_eqb N.eqb w (bytes "moves") then play_texts P p rest else Ret None
  end.
Definition read_record (P : profile) (t : list N) : res (option position) :=
  match cut t with
  | w :: rest =>
      if list_eqb N.eqb w (bytes "startpos") then p <- pos_startpos P;; read_moves P p rest
      else if list_eqb N.eqb w (bytes "sfen") then
        match rest with
        | b :: c :: h :: n :: rest =>
            match read_sfen (join (bytes " ") [b; c; h; n]) with
            | Some r =>
                if fits r then
                  o <- put_up P r;;
                  match o with Some s => read_moves P (arbitrary_position s) rest | None => Ret None end
                else Ret None
            | None => Ret None
            end
        | _ => Ret None
        end
      else Ret None
  | [] => Ret None
  end.

(** ** What the text keeps of an initial position: everything, if no move has been made on it, its ply is not 0, and each
    [king_position] is that of the only king, or none without a king. *)
Definition writes_down (a : apos) : Prop :=
  a_ply a <> 0 /\ a_last a = None /\
  forall c, (exists sq, only_king (a_board a) c sq /\ a_king a c = Some sq) \/ (no_king (a_board a) c /\ a_king a c = None).
(** the texts [ws] tell the moves [ms] *)
Definition tell (ws : list (list N)) (ms : list move) : Prop :=
  Forall2 (fun w m => read_move w = Some (as_usi m) /\ valid_move m) ws ms.
(** all of [ms] are played on [p], which becomes [q] *)
Definition plays (P : profile) (p : position) (ms : list move) (q : position) : Prop :=
  pos_run P p (map PMove ms) = Ret (q, repeat true (length ms)).
