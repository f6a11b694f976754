(** Model of calls from C to the exported functions on values: what travels are integers, structs by value and pointers to [Hand] and
    [Bitboard] objects in the memory of the program. *)
From Verif Require Export MCClient MResolution.

(** ** Values as C has them *)
Inductive c_val :=
| VInt (n : N)                         (* uint8_t, uint16_t and the typedefs of them *)
| VSigned (z : Z)                      (* int8_t *)
| VBool (b : bool)
| VHand (bs : list N)                  (* struct Hand *)
| VBits (w0 w1 : N)                    (* struct Bitboard *)
| VPtr (a : N)
| VVoid.

(** ** What the callee makes of an argument. A zero where Rust has a [NonZero], or an integer that is no discriminant where Rust
    has an enum, is undefined behaviour. *)
Definition as_int (v : c_val) : res N := match v with VInt n => Ret n | _ => UB end.
Definition as_signed (v : c_val) : res Z := match v with VSigned z => Ret z | _ => UB end.
Definition as_bool (v : c_val) : res bool := match v with VBool b => Ret b | _ => UB end.
Definition as_square (v : c_val) : res square := n <- as_int v;; k <- nonzero_new_unchecked n;; Ret (Square k).
Definition as_piece (v : c_val) : res piece := n <- as_int v;; k <- nonzero_new_unchecked n;; Ret (Piece k).
Definition as_move (v : c_val) : res compact_move := n <- as_int v;; k <- nonzero_new_unchecked n;; Ret (CompactMove k).
Definition as_color (v : c_val) : res color := n <- as_int v;; color_transmute n.
Definition as_kind (v : c_val) : res piece_kind := n <- as_int v;; pk_from_u8_unchecked n.
Definition as_hand (v : c_val) : res hand := match v with VHand bs => Ret (Hand bs) | _ => UB end.
Definition as_bits (v : c_val) : res bitboard := match v with VBits w0 w1 => Ret (Bitboard w0 w1) | _ => UB end.
Definition as_ptr (v : c_val) : res N := match v with VPtr a => Ret a | _ => UB end.

(** ** What C gets back *)
Definition of_bits (b : bitboard) : c_val := VBits (bb0 b) (bb1 b).

(** ** Objects behind [&mut]. [struct Bitboard] is as aligned as [uint64_t] is. *)
Definition load_hand (m : mem) (a : N) : res hand := l <- read_bytes m a 8;; Ret (Hand l).
Definition store_hand (m : mem) (a : N) (h : hand) : res mem := write_bytes m a (hand_bytes h).
Definition load_bits (A : N) (E : endian) (m : mem) (a : N) : res bitboard :=
  (if a mod A =? 0 then Ret tt else UB);;; l <- read_bytes m a 16;; Ret (bitboard_from_bytes E l).
Definition store_bits (A : N) (E : endian) (m : mem) (a : N) (b : bitboard) : res mem :=
  (if a mod A =? 0 then Ret tt else UB);;; write_bytes m a (bitboard_bytes E b).

(** ** The functions. [Square_from_u8] and [Square_shift] are here as well, although C cannot call them as they are declared. *)
Inductive c_fn :=
| F_Bitboard_empty | F_Bitboard_single | F_Bitboard_count | F_Bitboard_is_empty | F_Bitboard_contains | F_Bitboard_flip
| F_Bitboard_pop | F_Bitboard_bitand | F_Bitboard_bitand_assign | F_Bitboard_bitor | F_Bitboard_bitor_assign
| F_Bitboard_bitxor | F_Bitboard_bitxor_assign | F_Bitboard_not
| F_Color_flip | F_GameResolution_from_u8_unchecked
| F_Hand_new | F_Hand_add | F_Hand_remove | F_Hand_count | F_Hand_is_hand_piece
| F_IllegalMoveKind_from_u8_unchecked
| F_CompactMove_normal | F_CompactMove_drop | F_CompactMove_from | F_CompactMove_to | F_CompactMove_is_promoting | F_CompactMove_is_drop
| F_Piece_new | F_Piece_piece_kind | F_Piece_color | F_Piece_promote | F_Piece_unpromote
| F_PieceKind_from_u8 | F_PieceKind_from_u8_unchecked | F_PieceKind_promote | F_PieceKind_unpromote
| F_Square_new | F_Square_new_relative | F_Square_file | F_Square_rank | F_Square_index | F_Square_relative_rank | F_Square_relative_file
| F_Square_flip | F_Square_from_u8 | F_Square_from_u8_unchecked | F_Square_shift.

(** bitboard.rs:457-459, 466-468, 475-477: [a.op_assign(b)] *)
Definition assign_call (A : N) (E : endian) (op : bitboard -> bitboard -> bitboard) (p b : c_val) (m : mem) : res (mem * c_val) :=
  p <- as_ptr p;; b <- as_bits b;;
  x <- load_bits A E m p;;
  m' <- store_bits A E m p (op x b);;
  Ret (m', VVoid).
(** hand.rs:107-114, 120-127: [*self] is only written when the result is [Some] *)
Definition hand_call (f : hand -> piece_kind -> res (hand * bool)) (p k : c_val) (m : mem) : res (mem * c_val) :=
  p <- as_ptr p;; k <- as_kind k;;
  h <- load_hand m p;;
  '(h', ok) <- f h k;;
  (if ok then (m' <- store_hand m p h';; Ret (m', VBool true)) else Ret (m, VBool false)).

Definition pure (m : mem) (r : res c_val) : res (mem * c_val) := v <- r;; Ret (m, v).

Definition c_call (P : profile) (A : N) (E : endian) (f : c_fn) (args : list c_val) (m : mem) : res (mem * c_val) :=
  match f, args with
  | F_Bitboard_empty, [] => pure m (Ret (of_bits bb_empty))                                                   (* bitboard.rs:34 *)
  | F_Bitboard_single, [s] => pure m (s <- as_square s;; b <- bb_single P s;; Ret (of_bits b))                (* bitboard.rs:65 *)
  | F_Bitboard_count, [b] => pure m (b <- as_bits b;; n <- bb_count P b;; Ret (VInt n))                       (* bitboard.rs:80 *)
  | F_Bitboard_is_empty, [b] => pure m (b <- as_bits b;; Ret (VBool (bb_is_empty b)))                         (* bitboard.rs:98 *)
  | F_Bitboard_contains, [b; s] =>
      pure m (b <- as_bits b;; s <- as_square s;; x <- bb_contains P b s;; Ret (VBool x))                     (* bitboard.rs:112 *)
  | F_Bitboard_flip, [b] => pure m (b <- as_bits b;; b <- bb_flip P b;; Ret (of_bits b))                      (* bitboard.rs:132 *)
  | F_Bitboard_pop, [p] =>                                                                                    (* bitboard.rs:175 *)
      p <- as_ptr p;;
      b <- load_bits A E m p;;
      '(b', o) <- Bitboard_pop P b;;
      m' <- store_bits A E m p b';;
      Ret (m', VInt (os_repr o))
  | F_Bitboard_bitand, [a; b] => pure m (a <- as_bits a;; b <- as_bits b;; Ret (of_bits (bb_and a b)))        (* bitboard.rs:453 *)
  | F_Bitboard_bitand_assign, [p; b] => assign_call A E bb_and p b m                                          (* bitboard.rs:457 *)
  | F_Bitboard_bitor, [a; b] => pure m (a <- as_bits a;; b <- as_bits b;; Ret (of_bits (bb_or a b)))          (* bitboard.rs:462 *)
  | F_Bitboard_bitor_assign, [p; b] => assign_call A E bb_or p b m                                            (* bitboard.rs:466 *)
  | F_Bitboard_bitxor, [a; b] => pure m (a <- as_bits a;; b <- as_bits b;; Ret (of_bits (bb_xor a b)))        (* bitboard.rs:471 *)
  | F_Bitboard_bitxor_assign, [p; b] => assign_call A E bb_xor p b m                                          (* bitboard.rs:475 *)
  | F_Bitboard_not, [a] => pure m (a <- as_bits a;; Ret (of_bits (bb_not a)))                                 (* bitboard.rs:518 *)
  | F_Color_flip, [c] => pure m (c <- as_color c;; d <- color_flip c;; Ret (VInt (color_as_u8 d)))            (* color.rs:30 *)
  | F_GameResolution_from_u8_unchecked, [n] =>
      pure m (n <- as_int n;; g <- gr_from_u8_unchecked n;; Ret (VInt (gr_as_u8 g)))                          (* game_resolution.rs:37 *)
  | F_Hand_new, [] => pure m (Ret (VHand (hand_bytes hand_new)))                                              (* hand.rs:24 *)
  | F_Hand_add, [p; k] => hand_call (Hand_add P) p k m                                                        (* hand.rs:107 *)
  | F_Hand_remove, [p; k] => hand_call (Hand_remove P) p k m                                                  (* hand.rs:120 *)
  | F_Hand_count, [h; k] => pure m (h <- as_hand h;; k <- as_kind k;; n <- Hand_count P h k;; Ret (VInt n))   (* hand.rs:133 *)
  | F_Hand_is_hand_piece, [k] => pure m (k <- as_kind k;; Ret (VBool (is_hand_piece k)))                      (* hand.rs:161 *)
  | F_IllegalMoveKind_from_u8_unchecked, [n] =>
      pure m (n <- as_int n;; i <- imk_from_u8_unchecked n;; Ret (VInt (imk_as_u8 i)))                        (* illegal_move_kind.rs:60 *)
  | F_CompactMove_normal, [f; t; p] =>
      pure m (f <- as_square f;; t <- as_square t;; p <- as_bool p;; c <- cm_normal P f t p;; Ret (VInt (cm_repr c))) (* mv.rs:224 *)
  | F_CompactMove_drop, [p; t] =>
      pure m (p <- as_piece p;; t <- as_square t;; c <- cm_drop P p t;; Ret (VInt (cm_repr c)))               (* mv.rs:240 *)
  | F_CompactMove_from, [c] => pure m (c <- as_move c;; o <- CompactMove_from P c;; Ret (VInt (os_repr o)))   (* mv.rs:261 *)
  | F_CompactMove_to, [c] => pure m (c <- as_move c;; s <- cm_to c;; Ret (VInt (sq_repr s)))                  (* mv.rs:267 *)
  | F_CompactMove_is_promoting, [c] => pure m (c <- as_move c;; Ret (VBool (cm_is_promoting c)))              (* mv.rs:275 *)
  | F_CompactMove_is_drop, [c] => pure m (c <- as_move c;; Ret (VBool (cm_is_drop c)))                        (* mv.rs:282 *)
  | F_Piece_new, [k; c] => pure m (k <- as_kind k;; c <- as_color c;; p <- Piece_new P k c;; Ret (VInt (piece_repr p))) (* piece.rs:48 *)
  | F_Piece_piece_kind, [p] => pure m (p <- as_piece p;; k <- piece_piece_kind p;; Ret (VInt (pk_as_u8 k)))   (* piece.rs:71 *)
  | F_Piece_color, [p] => pure m (p <- as_piece p;; c <- piece_color p;; Ret (VInt (color_as_u8 c)))          (* piece.rs:78 *)
  | F_Piece_promote, [p] => pure m (p <- as_piece p;; o <- Piece_promote P p;; Ret (VInt (op_repr o)))        (* piece.rs:99 *)
  | F_Piece_unpromote, [p] => pure m (p <- as_piece p;; o <- Piece_unpromote P p;; Ret (VInt (op_repr o)))    (* piece.rs:113 *)
  | F_PieceKind_from_u8, [n] => pure m (n <- as_int n;; o <- PieceKind_from_u8 n;; Ret (VInt (opk_repr o)))   (* piece_kind.rs:175 *)
  | F_PieceKind_from_u8_unchecked, [n] =>
      pure m (n <- as_int n;; k <- pk_from_u8_unchecked n;; Ret (VInt (pk_as_u8 k)))                          (* piece_kind.rs:198 *)
  | F_PieceKind_promote, [k] => pure m (k <- as_kind k;; Ret (VInt (opk_repr (PieceKind_promote k))))         (* piece_kind.rs:205 *)
  | F_PieceKind_unpromote, [k] => pure m (k <- as_kind k;; Ret (VInt (opk_repr (PieceKind_unpromote k))))     (* piece_kind.rs:212 *)
  | F_Square_new, [f; r] => pure m (f <- as_int f;; r <- as_int r;; o <- Square_new P f r;; Ret (VInt (os_repr o))) (* square.rs:31 *)
  | F_Square_new_relative, [f; r; c] =>
      pure m (f <- as_int f;; r <- as_int r;; c <- as_color c;; o <- Square_new_relative P f r c;; Ret (VInt (os_repr o))) (* square.rs:62 *)
  | F_Square_file, [s] => pure m (s <- as_square s;; n <- sq_file P s;; Ret (VInt n))                         (* square.rs:75 *)
  | F_Square_rank, [s] => pure m (s <- as_square s;; n <- sq_rank P s;; Ret (VInt n))                         (* square.rs:89 *)
  | F_Square_index, [s] => pure m (s <- as_square s;; n <- sq_index P s;; Ret (VInt n))                       (* square.rs:104 *)
  | F_Square_relative_rank, [s; c] =>
      pure m (s <- as_square s;; c <- as_color c;; n <- sq_relative_rank P s c;; Ret (VInt n))                (* square.rs:111 *)
  | F_Square_relative_file, [s; c] =>
      pure m (s <- as_square s;; c <- as_color c;; n <- sq_relative_file P s c;; Ret (VInt n))                (* square.rs:121 *)
  | F_Square_flip, [s] => pure m (s <- as_square s;; t <- sq_flip P s;; Ret (VInt (sq_repr t)))               (* square.rs:139 *)
  | F_Square_from_u8, [n] => pure m (n <- as_int n;; Ret (VInt (os_repr (os_from (sq_from_u8 n)))))           (* square.rs:155 *)
  | F_Square_from_u8_unchecked, [n] => pure m (n <- as_int n;; s <- sq_from_u8_unchecked n;; Ret (VInt (sq_repr s))) (* square.rs:186 *)
  | F_Square_shift, [s; df; dr] =>
      pure m (s <- as_square s;; df <- as_signed df;; dr <- as_signed dr;; o <- sq_shift P s df dr;; Ret (VInt (os_repr (os_from o)))) (* square.rs:203 *)
  | _, _ => UB
  end.

(** the symbols *)
Open Scope string_scope.
Definition fn_name (f : c_fn) : string :=
  match f with
  | F_Bitboard_empty => "Bitboard_empty" | F_Bitboard_single => "Bitboard_single" | F_Bitboard_count => "Bitboard_count"
  | F_Bitboard_is_empty => "Bitboard_is_empty" | F_Bitboard_contains => "Bitboard_contains" | F_Bitboard_flip => "Bitboard_flip"
  | F_Bitboard_pop => "Bitboard_pop" | F_Bitboard_bitand => "Bitboard_bitand" | F_Bitboard_bitand_assign => "Bitboard_bitand_assign"
  | F_Bitboard_bitor => "Bitboard_bitor" | F_Bitboard_bitor_assign => "Bitboard_bitor_assign"
  | F_Bitboard_bitxor => "Bitboard_bitxor" | F_Bitboard_bitxor_assign => "Bitboard_bitxor_assign" | F_Bitboard_not => "Bitboard_not"
  | F_Color_flip => "Color_flip" | F_GameResolution_from_u8_unchecked => "GameResolution_from_u8_unchecked"
  | F_Hand_new => "Hand_new" | F_Hand_add => "Hand_add" | F_Hand_remove => "Hand_remove" | F_Hand_count => "Hand_count"
  | F_Hand_is_hand_piece => "Hand_is_hand_piece" | F_IllegalMoveKind_from_u8_unchecked => "IllegalMoveKind_from_u8_unchecked"
  | F_CompactMove_normal => "CompactMove_normal" | F_CompactMove_drop => "CompactMove_drop" | F_CompactMove_from => "CompactMove_from"
  | F_CompactMove_to => "CompactMove_to" | F_CompactMove_is_promoting => "CompactMove_is_promoting"
  | F_CompactMove_is_drop => "CompactMove_is_drop"
  | F_Piece_new => "Piece_new" | F_Piece_piece_kind => "Piece_piece_kind" | F_Piece_color => "Piece_color"
  | F_Piece_promote => "Piece_promote" | F_Piece_unpromote => "Piece_unpromote"
  | F_PieceKind_from_u8 => "PieceKind_from_u8" | F_PieceKind_from_u8_unchecked => "PieceKind_from_u8_unchecked"
  | F_PieceKind_promote => "PieceKind_promote" | F_PieceKind_unpromote => "PieceKind_unpromote"
  | F_Square_new => "Square_new" | F_Square_new_relative => "Square_new_relative" | F_Square_file => "Square_file"
  | F_Square_rank => "Square_rank" | F_Square_index => "Square_index" | F_Square_relative_rank => "Square_relative_rank"
  | F_Square_relative_file => "Square_relative_file" | F_Square_flip => "Square_flip" | F_Square_from_u8 => "Square_from_u8"
  | F_Square_from_u8_unchecked => "Square_from_u8_unchecked" | F_Square_shift => "Square_shift"
  end.
Close Scope string_scope.

(** ** Programs: variables hold values, [Hand] objects and [Bitboard] objects are in memory *)
Inductive c_arg := ALit (v : c_val) | AVar (x : nat) | AHandPtr (i : nat) | ABitsPtr (i : nat).
Inductive v_op :=
| OCall (x : nat) (f : c_fn) (args : list c_arg)     (* x = f(args) *)
| OHandSet (i : nat) (a : c_arg) | OHandGet (x : nat) (i : nat)
| OBitsSet (i : nat) (a : c_arg) | OBitsGet (x : nat) (i : nat).
Record v_env := VEnv { at_hand : nat -> N; at_bits : nat -> N }.
Record v_world := VWorld { v_mem : mem; v_var : nat -> option c_val }.
Definition put_var (w : v_world) (x : nat) (v : c_val) : v_world :=
  VWorld (v_mem w) (fun y => if Nat.eqb y x then Some v else v_var w y).
(** reading a variable that was never set is undefined behaviour *)
Definition arg_value (env : v_env) (w : v_world) (a : c_arg) : res c_val :=
  match a with
  | ALit v => Ret v
  | AVar x => match v_var w x with Some v => Ret v | None => UB end
  | AHandPtr i => Ret (VPtr (at_hand env i))
  | ABitsPtr i => Ret (VPtr (at_bits env i))
  end.
Definition v_step (P : profile) (A : N) (E : endian) (env : v_env) (o : v_op) (w : v_world) : res v_world :=
  match o with
  | OCall x f args => vs <- map_res (arg_value env w) args;; '(m, v) <- c_call P A E f vs (v_mem w);; Ret (put_var (VWorld m (v_var w)) x v)
  | OHandSet i a => v <- arg_value env w a;; h <- as_hand v;; m <- store_hand (v_mem w) (at_hand env i) h;; Ret (VWorld m (v_var w))
  | OHandGet x i => h <- load_hand (v_mem w) (at_hand env i);; Ret (put_var w x (VHand (hand_bytes h)))
  | OBitsSet i a => v <- arg_value env w a;; b <- as_bits v;; m <- store_bits A E (v_mem w) (at_bits env i) b;; Ret (VWorld m (v_var w))
  | OBitsGet x i => b <- load_bits A E (v_mem w) (at_bits env i);; Ret (put_var w x (of_bits b))
  end.
Definition v_run (P : profile) (A : N) (E : endian) (env : v_env) (os : list v_op) (w : v_world) : res v_world :=
  for_each os (v_step P A E env) w.
