(** Specification of the generated constants: a reader for the fragment of Rust the build script writes, and the names the
    constants should have. The reader uses nothing of the model of the build script. *)
From Verif Require Export Machine MColor MPieceKind MPiece MSquare SpecBase.
From Coq Require Import DecimalString.
Open Scope string_scope.

(** ** Reading *)
(** the lines of a text in which every line is ended by a newline *)
Fixpoint lines_from (cur : string -> string) (t : string) : list string :=
  match t with
  | EmptyString => match cur EmptyString with EmptyString => [] | l => [l] end
  | String c rest => if Ascii.eqb c (ascii_of_N 10) then cur EmptyString :: lines_from (fun s => s) rest
                     else lines_from (fun s => cur (String c s)) rest
  end.
Definition lines : string -> list string := lines_from (fun s => s).
(** [after p t]: the rest of [t] if it starts with [p] *)
Fixpoint after (p t : string) : option string :=
  match p, t with
  | EmptyString, _ => Some t
  | String a p', String b t' => if Ascii.eqb a b then after p' t' else None
  | String _ _, EmptyString => None
  end.
(** the characters of an identifier or number, and the rest *)
Definition word_char (c : ascii) : bool :=
  let n := N_of_ascii c in
  ((48 <=? n) && (n <=? 57) || (65 <=? n) && (n <=? 90) || (97 <=? n) && (n <=? 122) || (n =? 95))%N.
Fixpoint word (t : string) : string * string :=
  match t with
  | String c rest => if word_char c then let (w, r) := word rest in (String c w, r) else (EmptyString, t)
  | EmptyString => (EmptyString, EmptyString)
  end.

(** One line of the files *)
Inductive line :=
| LBlank | LComment | LUse
| LImpl (type_name : string)             (* the start of an inherent impl *)
| LMod (name : string)                   (* the start of a module *)
| LClose
| LAlso (name : string)                  (* doc comment naming another constant *)
| LPieceConst (name kind color : string) (* a constant of type Piece *)
| LSquareConst (name : string) (value : N).
Notation "x <-? a ; b" := (match a with Some x => b | None => None end) (at level 100, a at next level, right associativity).
Definition read_piece_const (t : string) : option line :=
  r <-? after "    pub const " t; let (name, r) := word r in
  r <-? after ": Piece = Piece::new(PieceKind::" r; let (kind, r) := word r in
  r <-? after ", Color::" r; let (color, r) := word r in
  match r with ");" => Some (LPieceConst name kind color) | _ => None end.
Definition read_square_const (t : string) : option line :=
  r <-? after "    pub const " t; let (name, r) := word r in
  r <-? after ": Square = unsafe { Square::from_u8_unchecked(" r; let (value, r) := word r in
  n <-? NilZero.uint_of_string value;
  match r with ") };" => Some (LSquareConst name (N.of_uint n)) | _ => None end.
Definition read_open (t : string) : option line :=
  match after "impl " t, after "pub mod " t with
  | Some r, _ => match word r with (w, " {") => Some (LImpl w) | _ => None end
  | None, Some r => match word r with (w, " {") => Some (LMod w) | _ => None end
  | None, None => None
  end.
Definition read_also (t : string) : option line :=
  r <-? after "    /// Also available as `" t; let (ty, r) := word r in
  r <-? after "::" r; let (name, r) := word r in
  match r with "`." => Some (LAlso (ty ++ "::" ++ name)) | _ => None end.
Definition first_of {A B} (fs : list (A -> option B)) (x : A) : option B :=
  fold_right (fun f r => match f x with Some y => Some y | None => r end) None fs.
Definition starts (p : string) (l : line) (t : string) : option line := match after p t with Some _ => Some l | None => None end.
Definition read_line (t : string) : option line :=
  match t with
  | "" => Some LBlank
  | "}" => Some LClose
  | _ => first_of [read_piece_const; read_square_const; read_open; read_also; starts "use " LUse; starts "    use super::" LUse;
                   starts "//" LComment; starts "#[doc(hidden)]" LComment] t
  end.
Fixpoint read_lines (ls : list string) : option (list line) :=
  match ls with
  | [] => Some []
  | t :: rest => l <-? read_line t; r <-? read_lines rest; Some (l :: r)
  end.

(** The constants of the items opened by a line satisfying [here], with the doc comment before each *)
Fixpoint items (here : line -> bool) (inside : bool) (doc : option string) (ls : list line) : list (option string * line) :=
  match ls with
  | [] => []
  | l :: rest =>
      match l with
      | LImpl _ | LMod _ => items here (here l) None rest
      | LClose => items here false None rest
      | LAlso n => items here inside (Some n) rest
      | LPieceConst _ _ _ | LSquareConst _ _ => (if inside then [(doc, l)] else []) ++ items here inside None rest
      | _ => items here inside None rest
      end
  end.
Definition of_impl (ty : string) (l : line) : bool := match l with LImpl t => String.eqb t ty | _ => false end.
Definition of_mod (m : string) (l : line) : bool := match l with LMod t => String.eqb t m | _ => false end.
Definition constants (here : line -> bool) (text : string) : option (list (option string * line)) :=
  ls <-? read_lines (lines text); Some (items here false None ls).

(** ** Meaning *)
Definition kinds_by_name : list (string * piece_kind) :=
  [("Pawn", Pawn); ("Lance", Lance); ("Knight", Knight); ("Silver", Silver); ("Gold", Gold); ("Bishop", Bishop); ("Rook", Rook);
   ("King", King); ("ProPawn", ProPawn); ("ProLance", ProLance); ("ProKnight", ProKnight); ("ProSilver", ProSilver);
   ("ProBishop", ProBishop); ("ProRook", ProRook)].
Definition colors_by_name : list (string * color) := [("Black", Black); ("White", White)].
Fixpoint lookup {A} (n : string) (l : list (string * A)) : option A :=
  match l with [] => None | (m, x) :: rest => if String.eqb m n then Some x else lookup n rest end.
(** name and value of a constant *)
Definition piece_meaning (P : profile) (l : line) : option (string * res piece) :=
  match l with
  | LPieceConst n k c =>
      match lookup k kinds_by_name, lookup c colors_by_name with Some k, Some c => Some (n, piece_new P k c) | _, _ => None end
  | _ => None
  end.
Definition square_meaning (l : line) : option (string * res square) :=
  match l with LSquareConst n v => Some (n, sq_from_u8_unchecked v) | _ => None end.

Definition all_some {A B} (f : A -> option B) (l : list A) : option (list B) :=
  fold_right (fun x r => match f x, r with Some y, Some ys => Some (y :: ys) | _, _ => None end) (Some []) l.

(** ** The names: color letter and piece letter, promoted pieces with a P in front; file digit and rank letter *)
Definition kind_letter (k : piece_kind) : string :=
  match base_kind k with
  | Pawn => "P" | Lance => "L" | Knight => "N" | Silver => "S" | Gold => "G" | Bishop => "B" | Rook => "R" | King => "K" | _ => "?"
  end.
Definition is_promoted (k : piece_kind) : bool := match k with
  | ProPawn | ProLance | ProKnight | ProSilver | ProBishop | ProRook => true | _ => false end.
Definition piece_name (k : piece_kind) (c : color) : string :=
  match c with Black => "B_" | White => "W_" end ++ (if is_promoted k then "P" else "") ++ kind_letter k.
Definition square_name (f r : N) : string :=
  "SQ_" ++ String (ascii_of_N (48 + f)) (String (ascii_of_N (64 + r)) "").

(** the doc comment names the constant's twin in [ty] *)
Definition says (ty : string) (x : option string * line) : bool :=
  match x with
  | (Some d, LPieceConst n _ _) => String.eqb d (ty ++ "::" ++ n)
  | (Some d, LSquareConst n _) => String.eqb d (ty ++ "::" ++ n)
  | _ => false
  end.

(** [l] has exactly one entry per element of [dom]: its name with its value *)
Definition exactly {A B} (dom : A -> Prop) (name : A -> string) (value : A -> B) (l : list (string * B)) : Prop :=
  NoDup (map fst l) /\ (forall a, dom a -> In (name a, value a) l) /\ (forall n v, In (n, v) l -> exists a, dom a /\ n = name a /\ v = value a).
Close Scope string_scope.
