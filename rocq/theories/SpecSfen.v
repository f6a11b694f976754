(** Specification of the text formats: decimal numbers, USI text of squares, pieces and moves, SFEN, each with a writer
    (for the exact text) and an independent reader; and of sinks. Uses the data types of the model only. *)
From Coq Require Import Decimal.
From Verif Require Import Machine MColor MPieceKind MPiece MSquare MMove SpecBase SpecPos.

(** ** Decimal numbers *)
Definition is_digit (c : N) : bool := (48 <=? c) && (c <=? 57).
(** the number a digit string denotes *)
Definition digits_value (t : list N) : N := fold_left (fun n c => 10 * n + (c - 48)) t 0.
(** canonical: digits only, no leading zero unless it is the whole text *)
Definition canonical_decimal (t : list N) (n : N) : Prop :=
  t <> [] /\ Forall (fun c => is_digit c = true) t /\ digits_value t = n /\ (hd 0 t = 48 -> t = [48]).
(** the canonical text, from the standard library's decimal representation *)
Fixpoint uint_text (u : uint) : list N :=
  match u with
  | Nil => [] | D0 u => 48 :: uint_text u | D1 u => 49 :: uint_text u | D2 u => 50 :: uint_text u
  | D3 u => 51 :: uint_text u | D4 u => 52 :: uint_text u | D5 u => 53 :: uint_text u | D6 u => 54 :: uint_text u
  | D7 u => 55 :: uint_text u | D8 u => 56 :: uint_text u | D9 u => 57 :: uint_text u
  end.
Definition decimal (n : N) : list N := uint_text (N.to_uint n).

(** ** USI text *)
Definition color_text (c : color) : list N := match c with Black => bytes "b" | White => bytes "w" end.
Definition kind_text (k : piece_kind) : list N :=
  match k with
  | Pawn => bytes "P" | Lance => bytes "L" | Knight => bytes "N" | Silver => bytes "S" | Gold => bytes "G"
  | Bishop => bytes "B" | Rook => bytes "R" | King => bytes "K"
  | ProPawn => bytes "+P" | ProLance => bytes "+L" | ProKnight => bytes "+N" | ProSilver => bytes "+S"
  | ProBishop => bytes "+B" | ProRook => bytes "+R"
  end.
(** upper case for Black, lower case for White *)
Definition lower (b : N) : N := if (65 <=? b) && (b <=? 90) then b + 32 else b.
Definition piece_text (x : piece_kind * color) : list N :=
  match snd x with Black => kind_text (fst x) | White => map lower (kind_text (fst x)) end.
Definition square_text (s : square) : list N := [48 + file_of s; 96 + rank_of s].
Definition move_text (m : move) : list N :=
  match m with
  | Normal from to promote => square_text from ++ square_text to ++ (if promote then bytes "+" else [])
  | Drop p to => kind_text (kind_of p) ++ bytes "*" ++ square_text to
  end.

(** *** Readers *)
Definition read_color (t : list N) : option color :=
  match t with
  | [98] => Some Black | [119] => Some White | _ => None
  end.
(** a letter, upper or lower case *)
Definition read_letter (b : N) : option (piece_kind * color) :=
  let c := if 97 <=? b then White else Black in
  match (if 97 <=? b then b - 32 else b) with
  | 80 => Some (Pawn, c) | 76 => Some (Lance, c) | 78 => Some (Knight, c) | 83 => Some (Silver, c) | 71 => Some (Gold, c)
  | 66 => Some (Bishop, c) | 82 => Some (Rook, c) | 75 => Some (King, c)
  | _ => None
  end.
Definition read_promoted (b : N) : option (piece_kind * color) :=
  match read_letter b with
  | Some (k, c) => match promoted k with Some l => Some (l, c) | None => None end
  | None => None
  end.
Definition read_piece (t : list N) : option (piece_kind * color) :=
  match t with
  | [b] => read_letter b
  | [43; b] => read_promoted b
  | _ => None
  end.
Definition read_square (t : list N) : option square :=
  match t with
  | [f; r] => if (49 <=? f) && (f <=? 57) && (97 <=? r) && (r <=? 105) then Some (square_at (f - 48) (r - 96)) else None
  | _ => None
  end.
(** a move as USI tells it: the color of a dropped piece is not in the text *)
Inductive usi_move := UNormal (from to : square) (promote : bool) | UDrop (k : piece_kind) (to : square).
Definition as_usi (m : move) : usi_move :=
  match m with Normal f t p => UNormal f t p | Drop p t => UDrop (kind_of p) t end.
Definition read_move (t : list N) : option usi_move :=
  match t with
  | [k; 42; f; r] => match read_piece [k], read_square [f; r] with
                     | Some (k, Black), Some to => Some (UDrop k to) | _, _ => None end
  | [43; k; 42; f; r] => match read_piece [43; k], read_square [f; r] with
                         | Some (k, Black), Some to => Some (UDrop k to) | _, _ => None end
  | [f; r; f'; r'] => match read_square [f; r], read_square [f'; r'] with
                      | Some from, Some to => Some (UNormal from to false) | _, _ => None end
  | [f; r; f'; r'; 43] => match read_square [f; r], read_square [f'; r'] with
                          | Some from, Some to => Some (UNormal from to true) | _, _ => None end
  | _ => None
  end.

(** ** SFEN *)
Notation board_cell := (option (piece_kind * color)).
(** a row of cells, with [run] vacancies pending: maximal runs of vacancies are numbers *)
Definition vacancies (run : N) : list N := if run =? 0 then [] else decimal run.
Fixpoint row_text (run : N) (cells : list board_cell) : list N :=
  match cells with
  | [] => vacancies run
  | None :: rest => row_text (run + 1) rest
  | Some x :: rest => vacancies run ++ piece_text x ++ row_text 0 rest
  end.
Definition files : list N := [9; 8; 7; 6; 5; 4; 3; 2; 1].
Definition ranks : list N := [1; 2; 3; 4; 5; 6; 7; 8; 9].
Definition row (b : square -> board_cell) (r : N) : list board_cell := map (fun f => b (square_at f r)) files.
Fixpoint join (sep : list N) (l : list (list N)) : list N :=
  match l with [] => [] | [x] => x | x :: rest => x ++ sep ++ join sep rest end.
Definition board_text (b : square -> board_cell) : list N := join (bytes "/") (map (fun r => row_text 0 (row b r)) ranks).
Definition hand_order : list (color * piece_kind) :=
  map (pair Black) [Rook; Bishop; Gold; Silver; Knight; Lance; Pawn] ++
  map (pair White) [Rook; Bishop; Gold; Silver; Knight; Lance; Pawn].
Definition hand_entry (h : color -> piece_kind -> N) (x : color * piece_kind) : list N :=
  let n := h (fst x) (snd x) in
  if n =? 0 then [] else (if n =? 1 then [] else decimal n) ++ piece_text (snd x, fst x).
Definition hands_text (h : color -> piece_kind -> N) : list N :=
  if forallb (fun x => h (fst x) (snd x) =? 0) hand_order then bytes "-" else flat_map (hand_entry h) hand_order.
Definition sfen_text (a : apos) : list N :=
  board_text (a_board a) ++ bytes " " ++ color_text (a_side a) ++ bytes " " ++ hands_text (a_hand a) ++ bytes " " ++ decimal (a_ply a).

(** *** A strict reader of the SFEN grammar *)
(** the rows up to the first space: digits 1-9 are vacancies (never two in a row), [+] promotes the next letter *)
Fixpoint read_rows (t : list N) (rows : list (list board_cell)) (cur : list board_cell) (after_digit plus : bool)
  : option (list (list board_cell) * list N) :=
  match t with
  | [] => None
  | c :: rest =>
      if plus then
        match read_promoted c with Some x => read_rows rest rows (cur ++ [Some x]) false false | None => None end
      else if c =? 47 then read_rows rest (rows ++ [cur]) [] false false
      else if c =? 32 then Some (rows ++ [cur], rest)
      else if c =? 43 then read_rows rest rows cur false true
      else if (49 <=? c) && (c <=? 57) then
        if after_digit then None else read_rows rest rows (cur ++ repeat None (N.to_nat (c - 48))) true false
      else match read_letter c with Some x => read_rows rest rows (cur ++ [Some x]) false false | None => None end
  end.
(** hands up to the next space: an optional number of at least 2 and a letter, no kind twice *)
Fixpoint read_hands (t : list N) (n : N) (h : color -> piece_kind -> N) : option ((color -> piece_kind -> N) * list N) :=
  match t with
  | [] => None
  | c :: rest =>
      if c =? 32 then if n =? 0 then Some (h, rest) else None
      else if is_digit c then
        if (n =? 0) && (c =? 48) then None else read_hands rest (10 * n + (c - 48)) h
      else match read_letter c with
           | Some (k, col) =>
               if can_be_in_hand k && (h col k =? 0) && negb (n =? 1) then
                 read_hands rest 0 (fun d l => if same_color d col && same_kind l k then (if n =? 0 then 1 else n) else h d l)
               else None
           | None => None
           end
  end.
Definition read_number (t : list N) : option N :=
  if forallb is_digit t && negb (match t with [] => true | [_] => false | c :: _ => c =? 48 end) then Some (digits_value t) else None.
Record sfen := Sfen { f_board : square -> board_cell; f_side : color; f_hand : color -> piece_kind -> N; f_ply : N }.
Definition board_of_rows (rows : list (list board_cell)) (s : square) : board_cell :=
  nth (N.to_nat (9 - file_of s)) (nth (N.to_nat (rank_of s - 1)) rows []) None.
Definition read_sfen (t : list N) : option sfen :=
  match read_rows t [] [] false false with
  | Some (rows, c :: 32 :: t) =>
      if (length rows =? 9)%nat && forallb (fun r => length r =? 9)%nat rows then
        match read_color [c],
              (match t with
               | 45 :: 32 :: t' => Some (fun _ _ => 0, t')
               | _ => read_hands t 0 (fun _ _ => 0)
               end) with
        | Some side, Some (h, t) =>
            match read_number t with Some n => Some (Sfen (board_of_rows rows) side h n) | None => None end
        | _, _ => None
        end
      else None
  | _ => None
  end.

(** ** Sinks *)
(** offering strings to a sink one after the other, stopping at the first error *)
Fixpoint feed {W} (K : sink W) (chunks : list (list N)) (w : W) : W * bool :=
  match chunks with
  | [] => (w, true)
  | c :: rest => let (w', ok) := write_str K w c in if ok then feed K rest w' else (w', false)
  end.
(** a function that can write to any sink *)
Definition printer := forall W, sink W -> writer W.
(** it offers some decomposition of [text] *)
Definition prints (f : printer) (text : list N) : Prop :=
  exists chunks, concat chunks = text /\ forall W (K : sink W) w, f W K w = Ret (feed K chunks w).
(** a sink that also records the calls made on it and their results *)
Definition recording {W} (K : sink W) : sink (W * list (list N * bool)) :=
  Sink (fun w s => let (w', ok) := write_str K (fst w) s in ((w', snd w ++ [(s, ok)]), ok)).
(** What C38 says about a function writing [text] *)
Definition honest_printer (f : printer) (text : list N) : Prop :=
  forall W (K : sink W) w, exists w' ok log,
    f W K w = Ret (w', ok) /\ f _ (recording K) (w, []) = Ret ((w', log), ok) /\
    (* an error is reported iff some write failed *)
    (ok = false <-> exists s, In (s, false) log) /\
    (* nothing is written after a failure *)
    (forall before s after, log = before ++ (s, false) :: after -> after = []) /\
    (* what was offered is a prefix of the text, and all of it if no write failed *)
    (exists rest, concat (map fst log) ++ rest = text) /\
    (ok = true -> concat (map fst log) = text).

(** ** Memory as C sees it *)
Definition poke (m : N -> N) (w : N * N) : N -> N := fun x => if x =? fst w then snd w else m x.
Definition pokes (m : N -> N) (ws : list (N * N)) : N -> N := fold_left poke ws m.
(** the C string at [ptr] is [t]: its bytes are there, none of them is NUL, and a NUL follows *)
Definition c_string (m : N -> N) (ptr : N) (t : list N) : Prop :=
  (forall i b, nth_error t i = Some b -> m (ptr + N.of_nat i) = b /\ b <> 0) /\ m (ptr + N.of_nat (length t)) = 0.

(** No more pieces than a full set, kings aside *)
Definition within_a_set (a : apos) : Prop :=
  forall k, In k hand_kinds -> on_board_count a k + a_hand a Black k + a_hand a White k <= full_set k.
