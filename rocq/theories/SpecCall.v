(** Specification of the exported functions on values in the terms of C: which integers are values of which type, and what each
    function computes, as arithmetic on these integers. Only the data types of [MCCall] are used, no function of the model. *)
From Verif Require Export SpecClient MCCall.

(** ** Which integers are values of which type *)
Definition within (lo hi n : N) : bool := (lo <=? n) && (n <=? hi).
Definition square_int (n : N) : bool := within 1 81 n.
Definition kind_int (n : N) : bool := within 1 14 n.
Definition color_int (n : N) : bool := within 1 2 n.
Definition piece_int (n : N) : bool := within 1 14 n || within 17 30 n.
(** low seven bits: destination; bit 7: drop; above it the origin, with bit 15 for promotion, or the piece *)
Definition move_int (n : N) : bool :=
  square_int (n mod 128) && if (n / 128) mod 2 =? 1 then piece_int (n / 256) else square_int (n / 256 mod 128) && (n <? 65536).
Definition byte_int (n : N) : bool := n <? 256.
Definition hand_ints (bs : list N) : bool := (length bs =? 8)%nat && forallb byte_int bs && (nth 7 bs 0 =? 0).
Definition words_ints (w0 w1 : N) : bool := (w0 <? 2 ^ 63) && (w1 <? 2 ^ 18).

(** ** Sets of squares *)
Definition has (w0 w1 s : N) : bool := if s <=? 63 then N.testbit w0 (s - 1) else N.testbit w1 (s - 64).
Definition square_numbers : list N := range 1 82.
Definition member_numbers (w0 w1 : N) : list N := filter (has w0 w1) square_numbers.
Definition words_of (f : N -> bool) : N * N :=
  let sum lo hi := fold_right N.add 0 (map (fun s => if f s then 2 ^ (s - lo) else 0) (range lo (hi + 1))) in (sum 1 63, sum 64 81).
Definition bits_of (f : N -> bool) : c_val := let (w0, w1) := words_of f in VBits w0 w1.

(** ** Arithmetic *)
Definition square_number (f r : N) : N := if within 1 9 f && within 1 9 r then 9 * (f - 1) + r else 0.
Definition file_number (s : N) : N := (s - 1) / 9 + 1.
Definition rank_number (s : N) : N := (s - 1) mod 9 + 1.
Definition promoted (k : N) : N := match k with 1 => 9 | 2 => 10 | 3 => 11 | 4 => 12 | 6 => 13 | 7 => 14 | _ => 0 end.
Definition unpromoted (k : N) : N := match k with 9 => 1 | 10 => 2 | 11 => 3 | 12 => 4 | 13 => 6 | 14 => 7 | _ => 0 end.
(** [k] is zero for none; [p] says which side *)
Definition same_side (p k : N) : N := if k =? 0 then 0 else k + 16 * (p / 16).
Definition translated (s : N) (df dr : Z) : N :=
  let f := (Z.of_N (file_number s) + df)%Z in let r := (Z.of_N (rank_number s) + dr)%Z in
  if ((1 <=? f) && (f <=? 9) && (1 <=? r) && (r <=? 9))%Z then 9 * (Z.to_N f - 1) + Z.to_N r else 0.
Definition replaced (bs : list N) (i : nat) (v : N) : list N := firstn i bs ++ v :: skipn (S i) bs.

(** ** What a call does: return a value, or change one object *)
Inductive c_effect :=
| Value (r : c_val)
| OnHand (a : N) (f : list N -> list N * c_val)
| OnBits (a : N) (f : N -> N -> N * N * c_val).
Definition when (b : bool) (v : c_val) : option c_effect := if b then Some (Value v) else None.

(** [None]: the arguments break the contract of the function *)
Definition meaning (f : c_fn) (args : list c_val) : option c_effect :=
  match f, args with
  | F_Bitboard_empty, [] => Some (Value (VBits 0 0))
  | F_Bitboard_single, [VInt s] => when (square_int s) (bits_of (N.eqb s))
  | F_Bitboard_count, [VBits a b] => when (words_ints a b) (VInt (N.of_nat (length (member_numbers a b))))
  | F_Bitboard_is_empty, [VBits a b] => when (words_ints a b) (VBool (length (member_numbers a b) =? 0)%nat)
  | F_Bitboard_contains, [VBits a b; VInt s] => when (words_ints a b && square_int s) (VBool (has a b s))
  | F_Bitboard_flip, [VBits a b] => when (words_ints a b) (bits_of (fun s => has a b (82 - s)))
  | F_Bitboard_pop, [VPtr p] =>
      Some (OnBits p (fun a b => match member_numbers a b with
                                 | [] => (a, b, VInt 0)
                                 | s :: _ => let (c, d) := words_of (fun t => has a b t && negb (t =? s)) in (c, d, VInt s)
                                 end))
  | F_Bitboard_bitand, [VBits a b; VBits c d] => when (words_ints a b && words_ints c d) (bits_of (fun s => has a b s && has c d s))
  | F_Bitboard_bitor, [VBits a b; VBits c d] => when (words_ints a b && words_ints c d) (bits_of (fun s => has a b s || has c d s))
  | F_Bitboard_bitxor, [VBits a b; VBits c d] => when (words_ints a b && words_ints c d) (bits_of (fun s => xorb (has a b s) (has c d s)))
  | F_Bitboard_bitand_assign, [VPtr p; VBits c d] =>
      if words_ints c d then Some (OnBits p (fun a b => (words_of (fun s => has a b s && has c d s), VVoid))) else None
  | F_Bitboard_bitor_assign, [VPtr p; VBits c d] =>
      if words_ints c d then Some (OnBits p (fun a b => (words_of (fun s => has a b s || has c d s), VVoid))) else None
  | F_Bitboard_bitxor_assign, [VPtr p; VBits c d] =>
      if words_ints c d then Some (OnBits p (fun a b => (words_of (fun s => xorb (has a b s) (has c d s)), VVoid))) else None
  | F_Bitboard_not, [VBits a b] => when (words_ints a b) (bits_of (fun s => negb (has a b s)))
  | F_Color_flip, [VInt c] => when (color_int c) (VInt (3 - c))
  | F_GameResolution_from_u8_unchecked, [VInt n] => when (within 1 5 n) (VInt n)
  | F_Hand_new, [] => Some (Value (VHand [0; 0; 0; 0; 0; 0; 0; 0]))
  | F_Hand_add, [VPtr p; VInt k] =>
      if kind_int k then
        Some (OnHand p (fun bs => let i := N.to_nat (k - 1) in
          if k <=? 7 then (replaced bs i ((nth i bs 0 + 1) mod 256), VBool true) else (bs, VBool false)))
      else None
  | F_Hand_remove, [VPtr p; VInt k] =>
      if kind_int k then
        Some (OnHand p (fun bs => let i := N.to_nat (k - 1) in
          if (k <=? 7) && (0 <? nth i bs 0) then (replaced bs i (nth i bs 0 - 1), VBool true) else (bs, VBool false)))
      else None
  | F_Hand_count, [VHand bs; VInt k] => when (hand_ints bs && kind_int k) (VInt (if k <=? 7 then nth (N.to_nat (k - 1)) bs 0 else 0))
  | F_Hand_is_hand_piece, [VInt k] => when (kind_int k) (VBool (k <=? 7))
  | F_IllegalMoveKind_from_u8_unchecked, [VInt n] => when (within 1 7 n) (VInt n)
  | F_CompactMove_normal, [VInt f; VInt t; VBool p] =>
      when (square_int f && square_int t) (VInt (256 * f + t + if p then 32768 else 0))
  | F_CompactMove_drop, [VInt p; VInt t] => when (piece_int p && square_int t) (VInt (256 * p + 128 + t))
  | F_CompactMove_from, [VInt c] => when (move_int c) (VInt (if (c / 128) mod 2 =? 1 then 0 else c / 256 mod 128))
  | F_CompactMove_to, [VInt c] => when (move_int c) (VInt (c mod 128))
  | F_CompactMove_is_promoting, [VInt c] => when (move_int c) (VBool (32768 <=? c))
  | F_CompactMove_is_drop, [VInt c] => when (move_int c) (VBool ((c / 128) mod 2 =? 1))
  | F_Piece_new, [VInt k; VInt c] => when (kind_int k && color_int c) (VInt (k + 16 * (c - 1)))
  | F_Piece_piece_kind, [VInt p] => when (piece_int p) (VInt (p mod 16))
  | F_Piece_color, [VInt p] => when (piece_int p) (VInt (p / 16 + 1))
  | F_Piece_promote, [VInt p] => when (piece_int p) (VInt (same_side p (promoted (p mod 16))))
  | F_Piece_unpromote, [VInt p] => when (piece_int p) (VInt (same_side p (unpromoted (p mod 16))))
  | F_PieceKind_from_u8, [VInt n] => when (byte_int n) (VInt (if kind_int n then n else 0))
  | F_PieceKind_from_u8_unchecked, [VInt n] => when (kind_int n) (VInt n)
  | F_PieceKind_promote, [VInt k] => when (kind_int k) (VInt (promoted k))
  | F_PieceKind_unpromote, [VInt k] => when (kind_int k) (VInt (unpromoted k))
  | F_Square_new, [VInt f; VInt r] => when (byte_int f && byte_int r) (VInt (square_number f r))
  | F_Square_new_relative, [VInt f; VInt r; VInt c] =>
      when (byte_int f && byte_int r && color_int c)
           (VInt (if (c =? 1) || (square_number f r =? 0) then square_number f r else 82 - square_number f r))
  | F_Square_file, [VInt s] => when (square_int s) (VInt (file_number s))
  | F_Square_rank, [VInt s] => when (square_int s) (VInt (rank_number s))
  | F_Square_index, [VInt s] => when (square_int s) (VInt s)
  | F_Square_relative_rank, [VInt s; VInt c] =>
      when (square_int s && color_int c) (VInt (if c =? 1 then rank_number s else 10 - rank_number s))
  | F_Square_relative_file, [VInt s; VInt c] =>
      when (square_int s && color_int c) (VInt (if c =? 1 then file_number s else 10 - file_number s))
  | F_Square_flip, [VInt s] => when (square_int s) (VInt (82 - s))
  | F_Square_from_u8, [VInt n] => when (byte_int n) (VInt (if square_int n then n else 0))
  | F_Square_from_u8_unchecked, [VInt n] => when (square_int n) (VInt n)
  | F_Square_shift, [VInt s; VSigned df; VSigned dr] =>
      when (square_int s && ((-128 <=? df) && (df <=? 127) && (-128 <=? dr) && (dr <=? 127))%Z) (VInt (translated s df dr))
  | _, _ => None
  end.

(** ** Memory *)
Definition hand_at_addr (m : mem) (a : N) (bs : list N) : Prop := forall i b, nth_error bs i = Some b -> m (a + N.of_nat i) = Some b.
Definition bits_at_addr (E : endian) (m : mem) (a w0 w1 : N) : Prop := number_at E m a 8 w0 /\ number_at E m (a + 8) 8 w1.

(** ** Values of the declared types: [t] is a type of the Rust side *)
Definition bits_ok_of (w : N * N) : bool := words_ints (fst w) (snd w).
Definition value_of (t : rty) (v : c_val) : bool :=
  match t, v with
  | RUnit, VVoid => true
  | RU8, VInt n => byte_int n
  | RI8, VSigned z => ((-128 <=? z) && (z <=? 127))%Z
  | RBool, VBool _ => true
  | RMutRef _, VPtr _ => true
  | ROption _, VInt n => within 0 81 n
  | RNamed name, VInt n =>
      if String.eqb name "Square" then square_int n
      else if String.eqb name "OptionSquare" then within 0 81 n
      else if String.eqb name "Piece" then piece_int n
      else if String.eqb name "OptionPiece" then (n =? 0) || piece_int n
      else if String.eqb name "PieceKind" then kind_int n
      else if String.eqb name "OptionPieceKind" then within 0 14 n
      else if String.eqb name "Color" then color_int n
      else if String.eqb name "CompactMove" then move_int n
      else if String.eqb name "GameResolution" then within 1 5 n
      else if String.eqb name "IllegalMoveKind" then within 1 7 n
      else false
  | RNamed name, VHand bs => String.eqb name "Hand" && hand_ints bs
  | RNamed name, VBits a b => String.eqb name "Bitboard" && words_ints a b
  | _, _ => false
  end.
(** the numbers an unchecked conversion may be given *)
Definition unchecked_limit (f : c_fn) : option N :=
  match f with
  | F_GameResolution_from_u8_unchecked => Some 5 | F_IllegalMoveKind_from_u8_unchecked => Some 7
  | F_PieceKind_from_u8_unchecked => Some 14 | F_Square_from_u8_unchecked => Some 81
  | _ => None
  end.
Definition unchecked_fine (f : c_fn) (args : list c_val) : bool :=
  match unchecked_limit f, args with Some n, [VInt k] => within 1 n k | Some _, _ => false | None, _ => true end.

(** ** Programs over plain values *)
Record v_state := VState { vs_var : nat -> option c_val; vs_hand : nat -> option (list N); vs_bits : nat -> option (N * N) }.
Definition v_start : v_state := VState (fun _ => None) (fun _ => None) (fun _ => None).
Definition let_var (st : v_state) (x : nat) (v : c_val) : v_state :=
  VState (fun y => if Nat.eqb y x then Some v else vs_var st y) (vs_hand st) (vs_bits st).
Definition let_hand (st : v_state) (i : nat) (bs : list N) : v_state :=
  VState (vs_var st) (fun j => if Nat.eqb j i then Some bs else vs_hand st j) (vs_bits st).
Definition let_bits (st : v_state) (i : nat) (w : N * N) : v_state :=
  VState (vs_var st) (vs_hand st) (fun j => if Nat.eqb j i then Some w else vs_bits st j).
(** the value of an argument; which address a pointer is does not matter here *)
Definition arg_of (st : v_state) (a : c_arg) : option c_val :=
  match a with ALit v => Some v | AVar x => vs_var st x | AHandPtr i | ABitsPtr i => Some (VPtr 0) end.
Fixpoint args_of (st : v_state) (l : list c_arg) : option (list c_val) :=
  match l with
  | [] => Some []
  | a :: rest => match arg_of st a, args_of st rest with Some v, Some vs => Some (v :: vs) | _, _ => None end
  end.
(** [None]: an object or variable is used before it is set, or an argument is not fine *)
Definition v_meaning (st : v_state) (o : v_op) : option v_state :=
  match o with
  | OCall x f args =>
      match args_of st args with
      | None => None
      | Some vs =>
          match meaning f vs with
          | None => None
          | Some (Value r) => Some (let_var st x r)
          | Some (OnHand _ g) =>
              match args with
              | AHandPtr i :: _ =>
                  match vs_hand st i with
                  | Some bs => let (bs', r) := g bs in Some (let_var (let_hand st i bs') x r)
                  | None => None
                  end
              | _ => None
              end
          | Some (OnBits _ g) =>
              match args with
              | ABitsPtr i :: _ =>
                  match vs_bits st i with
                  | Some (w0, w1) => let '(w0', w1', r) := g w0 w1 in Some (let_var (let_bits st i (w0', w1')) x r)
                  | None => None
                  end
              | _ => None
              end
          end
      end
  | OHandSet i a => match arg_of st a with Some (VHand bs) => if hand_ints bs then Some (let_hand st i bs) else None | _ => None end
  | OHandGet x i => match vs_hand st i with Some bs => Some (let_var st x (VHand bs)) | None => None end
  | OBitsSet i a => match arg_of st a with Some (VBits w0 w1) => if words_ints w0 w1 then Some (let_bits st i (w0, w1)) else None | _ => None end
  | OBitsGet x i => match vs_bits st i with Some (w0, w1) => Some (let_var st x (VBits w0 w1)) | None => None end
  end.
Fixpoint v_meanings (st : v_state) (os : list v_op) : option v_state :=
  match os with [] => Some st | o :: rest => match v_meaning st o with Some st' => v_meanings st' rest | None => None end end.

(** ** Contracts *)
Fixpoint typed (ts : list rty) (vs : list c_val) : bool :=
  match ts, vs with
  | [], [] => true
  | t :: ts, v :: vs => value_of t v && typed ts vs
  | _, _ => false
  end.
(** an effect has the result type [t] and leaves the object it changes a value of its type *)
Definition effect_typed (t : rty) (eff : c_effect) : Prop :=
  match eff with
  | Value r => value_of t r = true
  | OnHand _ g => forall bs, hand_ints bs = true -> hand_ints (fst (g bs)) = true /\ value_of t (snd (g bs)) = true
  | OnBits _ g => forall w0 w1, words_ints w0 w1 = true ->
      words_ints (fst (fst (g w0 w1))) (snd (fst (g w0 w1))) = true /\ value_of t (snd (g w0 w1)) = true
  end.
(** integers that are no value of the type at all, so that passing them is undefined behaviour *)
Definition impossible (t : rty) (v : c_val) : bool :=
  match t, v with
  | RNamed name, VInt n =>
      if String.eqb name "PieceKind" then negb (kind_int n)
      else if String.eqb name "Color" then negb (color_int n)
      else (String.eqb name "Square" || String.eqb name "Piece" || String.eqb name "CompactMove") && (n =? 0)
  | _, _ => false
  end.

(** does a function take or return a pointer to a position or a game? *)
Definition points_to (t : rty) : option string :=
  match t with
  | RRef (RNamed name) | RMutRef (RNamed name) | RMutPtr (RNamed name) | RMutRef (RMaybeUninit (RNamed name)) => Some name
  | _ => None
  end.
Definition about_positions (e : rexport) : bool :=
  existsb (fun t => match points_to t with
                    | Some name => existsb (String.eqb name) ["Position"; "PartialPosition"; "Game"; "PartialGame"]%string
                    | None => false
                    end) (re_ret e :: re_args e).

(** ** Placement of the objects of a program *)
Inductive v_object := HandObject (i : nat) | BitsObject (i : nat).
Definition v_region (env : v_env) (x : v_object) : N * N :=
  match x with HandObject i => (at_hand env i, 8) | BitsObject i => (at_bits env i, 16) end.
Definition in_object (env : v_env) (x : v_object) (a : N) : Prop := in_region (fst (v_region env x)) (snd (v_region env x)) a.
(** the first [n] hands and [k] bitboards *)
Definition v_known (n k : nat) (x : v_object) : Prop := match x with HandObject i => (i < n)%nat | BitsObject i => (i < k)%nat end.
Definition v_placed (A : N) (env : v_env) (n k : nat) (m : mem) : Prop :=
  (forall i, (i < k)%nat -> at_bits env i mod A = 0) /\
  (forall x, v_known n k x -> accessible m (fst (v_region env x)) (snd (v_region env x))) /\
  (forall x y a, v_known n k x -> v_known n k y -> x <> y -> in_object env x a -> in_object env y a -> False).
Definition arg_within (n k : nat) (a : c_arg) : Prop :=
  match a with AHandPtr i => (i < n)%nat | ABitsPtr i => (i < k)%nat | _ => True end.
Definition op_within (n k : nat) (o : v_op) : Prop :=
  match o with
  | OCall _ _ args => Forall (arg_within n k) args
  | OHandSet i _ | OHandGet _ i => (i < n)%nat
  | OBitsSet i _ | OBitsGet _ i => (i < k)%nat
  end.
(** the world shows the state *)
Definition v_shows (E : endian) (env : v_env) (n k : nat) (w : v_world) (st : v_state) : Prop :=
  (forall x, v_var w x = vs_var st x) /\
  (forall i bs, (i < n)%nat -> vs_hand st i = Some bs -> hand_at_addr (v_mem w) (at_hand env i) bs) /\
  (forall i w0 w1, (i < k)%nat -> vs_bits st i = Some (w0, w1) -> bits_at_addr E (v_mem w) (at_bits env i) w0 w1).
