(** A static checker for C programs that use the library: types of integers by range, definite assignment, and ownership of the
    positions on the heap. It only looks at the text of a program and the types in the interface. *)
From Verif Require Export SpecProgram.

(** ** Types of values *)
Inductive vty :=
| TInt (lo hi : N)                      (* integers from lo to hi *)
| TPiece | TPieceOrNone | TMove | TMoveOrNone
| TSigned                               (* int8_t *)
| TFlag | THand | TBits | TNothing.
Definition has_vty (t : vty) (v : c_val) : bool :=
  match t, v with
  | TInt lo hi, VInt n => within lo hi n
  | TPiece, VInt n => piece_int n
  | TPieceOrNone, VInt n => (n =? 0) || piece_int n
  | TMove, VInt n => move_int n
  | TMoveOrNone, VInt n => (n =? 0) || move_int n
  | TSigned, VSigned z => ((-128 <=? z) && (z <=? 127))%Z
  | TFlag, VBool _ => true
  | THand, VHand bs => hand_ints bs
  | TBits, VBits a b => words_ints a b
  | TNothing, VVoid => true
  | _, _ => false
  end.
(** all values of [t] are values of [u] *)
Definition sub (t u : vty) : bool :=
  match t, u with
  | TInt a b, TInt c d => (c <=? a) && (b <=? d)
  | TInt a b, TPiece => ((1 <=? a) && (b <=? 14)) || ((17 <=? a) && (b <=? 30))
  | TInt a b, TPieceOrNone => (b <=? 14) || ((17 <=? a) && (b <=? 30))
  | TInt a b, TMove | TInt a b, TMoveOrNone => (a =? b) && has_vty u (VInt a)
  | TPiece, TPiece | TPiece, TPieceOrNone | TPieceOrNone, TPieceOrNone => true
  | TPiece, TInt c d => (c <=? 1) && (30 <=? d)
  | TPieceOrNone, TInt c d => (c =? 0) && (30 <=? d)
  | TMove, TMove | TMove, TMoveOrNone | TMoveOrNone, TMoveOrNone => true
  | TMove, TInt c d => (c <=? 1) && (65535 <=? d)
  | TMoveOrNone, TInt c d => (c =? 0) && (65535 <=? d)
  | TSigned, TSigned | TFlag, TFlag | THand, THand | TBits, TBits | TNothing, TNothing => true
  | _, _ => false
  end.
Definition vty_of_literal (v : c_val) : option vty :=
  match v with
  | VInt n => Some (TInt n n)
  | VSigned _ => if has_vty TSigned v then Some TSigned else None
  | VBool _ => Some TFlag
  | VHand _ => if has_vty THand v then Some THand else None
  | VBits _ _ => if has_vty TBits v then Some TBits else None
  | VVoid => Some TNothing
  | VPtr _ => None
  end.
Open Scope string_scope.
(** the type of an argument or result by its type in the interface; [None] for pointers *)
Definition vty_of (t : rty) : option vty :=
  match t with
  | RUnit => Some TNothing
  | RU8 => Some (TInt 0 255)
  | RI8 => Some TSigned
  | RBool => Some TFlag
  | ROption _ => Some (TInt 0 81)
  | RNamed name =>
      if String.eqb name "Square" then Some (TInt 1 81)
      else if String.eqb name "OptionSquare" then Some (TInt 0 81)
      else if String.eqb name "Piece" then Some TPiece
      else if String.eqb name "OptionPiece" then Some TPieceOrNone
      else if String.eqb name "PieceKind" then Some (TInt 1 14)
      else if String.eqb name "OptionPieceKind" then Some (TInt 0 14)
      else if String.eqb name "Color" then Some (TInt 1 2)
      else if String.eqb name "CompactMove" then Some TMove
      else if String.eqb name "GameResolution" then Some (TInt 1 5)
      else if String.eqb name "IllegalMoveKind" then Some (TInt 1 7)
      else if String.eqb name "Hand" then Some THand
      else if String.eqb name "Bitboard" then Some TBits
      else None
  | _ => None
  end.
Close Scope string_scope.
(** the smallest type known that has all values of both *)
Definition widest (t u : vty) : option vty :=
  if sub t u then Some u else if sub u t then Some t else
  match t, u with
  | TInt a b, TInt c d => Some (TInt (N.min a c) (N.max b d))
  | _, _ => if sub t (TInt 0 65535) && sub u (TInt 0 65535) then Some (TInt 0 65535) else None
  end.

(** ** What is known at a point of the program *)
Record facts := Facts {
  k_var : list (nat * vty);             (* variables which are set, and their types *)
  k_pos : list nat;                     (* positions which are set *)
  k_hand : list nat;
  k_bits : list nat;
  k_own : list nat                      (* pointers each of which owns an object; no other object is left *)
}.
Definition facts_start : facts := Facts [] [] [] [] [].
Definition listed (l : list nat) (i : nat) : bool := existsb (Nat.eqb i) l.
Definition subset (l k : list nat) : bool := forallb (listed k) l.
Definition drop (l : list nat) (i : nat) : list nat := filter (fun j => negb (Nat.eqb i j)) l.
Fixpoint lookup (l : list (nat * vty)) (x : nat) : option vty :=
  match l with [] => None | (y, t) :: rest => if Nat.eqb y x then Some t else lookup rest x end.
Definition forget (l : list (nat * vty)) (x : nat) : list (nat * vty) := filter (fun p => negb (Nat.eqb (fst p) x)) l.
Definition know_var (F : facts) (x : nat) (t : vty) : facts := Facts ((x, t) :: forget (k_var F) x) (k_pos F) (k_hand F) (k_bits F) (k_own F).
Definition know_pos (F : facts) (i : nat) : facts := Facts (k_var F) (i :: drop (k_pos F) i) (k_hand F) (k_bits F) (k_own F).
Definition know_hand (F : facts) (i : nat) : facts := Facts (k_var F) (k_pos F) (i :: drop (k_hand F) i) (k_bits F) (k_own F).
Definition know_bits (F : facts) (i : nat) : facts := Facts (k_var F) (k_pos F) (k_hand F) (i :: drop (k_bits F) i) (k_own F).
Definition owning (F : facts) (l : list nat) : facts := Facts (k_var F) (k_pos F) (k_hand F) (k_bits F) l.
(** [F] says at least as much as [G] *)
Definition stronger (F G : facts) : bool :=
  forallb (fun p => match lookup (k_var G) (fst p), lookup (k_var F) (fst p) with Some u, Some t => sub t u | None, _ => true | _, None => false end) (k_var G) &&
  subset (k_pos G) (k_pos F) && subset (k_hand G) (k_hand F) && subset (k_bits G) (k_bits F) &&
  subset (k_own G) (k_own F) && subset (k_own F) (k_own G).
(** what both say; bounds which moved are given up if [wide] *)
Definition widened (t w : vty) : vty :=
  match t, w with
  | TInt a b, TInt c d => if d <=? 255 then TInt (if c <? a then 0 else c) (if b <? d then 255 else d) else w
  | _, _ => w
  end.
Definition common (wide : bool) (F G : facts) : facts :=
  let both l k := filter (listed k) l in
  Facts
    (flat_map (fun p => match lookup (k_var G) (fst p) with
                        | Some u => match widest (snd p) u with
                                    | Some w => [(fst p, if wide then widened (snd p) w else w)]
                                    | None => []
                                    end
                        | None => []
                        end) (k_var F))
    (both (k_pos F) (k_pos G)) (both (k_hand F) (k_hand G)) (both (k_bits F) (k_bits G)) (k_own F).

(** ** Arguments *)
Definition arg_type (F : facts) (a : c_arg) : option vty :=
  match a with ALit v => vty_of_literal v | AVar x => lookup (k_var F) x | _ => None end.
Definition fits (F : facts) (a : c_arg) (t : vty) : bool := match arg_type F a with Some u => sub u t | None => false end.
Open Scope string_scope.
Definition arg_fits (F : facts) (t : rty) (a : c_arg) : bool :=
  match t, a with
  | RMutRef (RNamed name), AHandPtr i => String.eqb name "Hand" && listed (k_hand F) i
  | RMutRef (RNamed name), ABitsPtr i => String.eqb name "Bitboard" && listed (k_bits F) i
  | RMutRef _, _ => false
  | _, _ => match vty_of t with Some u => fits F a u | None => false end
  end.
Close Scope string_scope.
Fixpoint args_fit (F : facts) (ts : list rty) (l : list c_arg) : bool :=
  match ts, l with
  | [], [] => true
  | t :: ts, a :: l => arg_fits F t a && args_fit F ts l
  | _, _ => false
  end.
Definition interface_of (f : c_fn) : option rexport := find (fun e => String.eqb (re_name e) (fn_name f)) rust_exports.
Definition unchecked_fits (F : facts) (f : c_fn) (l : list c_arg) : bool :=
  match unchecked_limit f, l with Some n, [a] => fits F a (TInt 1 n) | Some _, _ => false | None, _ => true end.
Definition numeric (F : facts) (a : c_arg) : bool :=
  match arg_type F a with Some (THand | TBits | TNothing) | None => false | Some _ => true end.

(** ** Conditions *)
Definition cond_fits (F : facts) (c : c_cond) : bool :=
  match c with IsTrue a => numeric F a | IsEqual a b | IsLess a b => numeric F a && numeric F b end.
Definition at_least (n : N) (t : vty) : vty :=
  match t with
  | TInt lo hi => TInt (N.max lo n) hi
  | TPieceOrNone => if 1 <=? n then TPiece else t
  | TMoveOrNone => if 1 <=? n then TMove else t
  | t => t
  end.
Definition at_most (n : N) (t : vty) : vty := match t with TInt lo hi => TInt lo (N.min hi n) | t => t end.
Definition refine (F : facts) (x : nat) (f : vty -> vty) : facts :=
  match lookup (k_var F) x with Some t => know_var F x (f t) | None => F end.
(** what is known where the condition has been found to be [b] *)
Definition assume (c : c_cond) (b : bool) (F : facts) : facts :=
  match c, b with
  | IsTrue (AVar x), true => refine F x (at_least 1)
  | IsTrue (AVar x), false => refine F x (at_most 0)
  | IsEqual (AVar x) (ALit (VInt n)), true => refine F x (fun t => at_most n (at_least n t))
  | IsEqual (AVar x) (ALit (VInt n)), false => if n =? 0 then refine F x (at_least 1) else F
  | IsLess (AVar x) (ALit (VInt n)), true => if n =? 0 then F else refine F x (at_most (n - 1))
  | IsLess (AVar x) (ALit (VInt n)), false => refine F x (at_least n)
  | _, _ => F
  end.

(** ** Statements *)
Definition place_fits (F : facts) (pl : c_place) : bool :=
  match pl with InVar i => listed (k_pos F) i | Inside h | Initially h => listed (k_own F) h end.
Definition query_type (F : facts) (q : c_query) : option vty :=
  let when (b : bool) t := if b then Some t else None in
  match q with
  | KPieceAt a => when (fits F a (TInt 1 81)) TPieceOrNone
  | KPly => Some (TInt 0 65535)
  | KSideToMove => Some (TInt 1 2)
  | KHand a => when (fits F a (TInt 1 2)) THand
  | KLastMove => Some TMoveOrNone
  | KOccupied | KVacant => Some TBits
  | KPlayer a => when (fits F a (TInt 1 2)) TBits
  | KPieces a => when (fits F a TPiece) TBits
  end.
(** the facts after a call and the type of its result *)
Definition check_call (F : facts) (c : p_call) : option (facts * vty) :=
  let when (b : bool) r := if b then Some r else None in
  match c with
  | PStartpos i => Some (know_pos F i, TNothing)
  | PMove i a => when (listed (k_pos F) i && fits F a TMove) (F, TFlag)
  | PCopy i pl => when (place_fits F pl) (know_pos F i, TNothing)
  | PAsk pl q => match query_type F q with Some t => when (place_fits F pl) (F, t) | None => None end
  | PKinds pl a => when (place_fits F pl && fits F a (TInt 1 14)) (F, TBits)
  | PSfen pl t => when (place_fits F pl) (F, TNothing)
  | QStartpos h => when (negb (listed (k_own F) h)) (owning F (h :: k_own F), TNothing)
  | QDestruct h => when (listed (k_own F) h) (owning F (drop (k_own F) h), TNothing)
  | QAlias h g =>                       (* ownership moves *)
      when (listed (k_own F) g && negb (listed (k_own F) h)) (owning F (h :: drop (k_own F) g), TNothing)
  | QMove h a => when (listed (k_own F) h && fits F a TMove) (F, TFlag)
  | QAsk h q => match query_type F q with Some t => when (listed (k_own F) h) (F, t) | None => None end
  | QSfen h t => when (listed (k_own F) h) (F, TNothing)
  end.
Definition check_value (F : facts) (o : v_op) : option facts :=
  match o with
  | OCall x f args =>
      match interface_of f with
      | Some e =>
          if args_fit F (re_args e) args && unchecked_fits F f args
          then match vty_of (re_ret e) with Some t => Some (know_var F x t) | None => None end
          else None
      | None => None
      end
  | OHandSet i a => if fits F a THand then Some (know_hand F i) else None
  | OHandGet x i => if listed (k_hand F) i then Some (know_var F x THand) else None
  | OBitsSet i a => if fits F a TBits then Some (know_bits F i) else None
  | OBitsGet x i => if listed (k_bits F) i then Some (know_var F x TBits) else None
  end.
Definition sum_type (t u : vty) : vty :=
  match t, u with
  | TInt a b, TInt c d => if b + d <? 256 then TInt (a + c) (b + d) else TInt 0 255
  | _, _ => TInt 0 255
  end.
(** the facts after the statement; [None]: rejected. A loop is tried with weaker and weaker facts until they are kept by its body. *)
Definition tries : nat := 8.
Fixpoint check (F : facts) (s : c_stmt) : option facts :=
  match s with
  | SSkip => Some F
  | SValue o => check_value F o
  | SCall x c => match check_call F c with Some (G, t) => Some (know_var G x t) | None => None end
  | SSet x a => match arg_type F a with Some t => Some (know_var F x t) | None => None end
  | SAdd x a b =>
      match arg_type F a, arg_type F b with
      | Some t, Some u => if numeric F a && numeric F b then Some (know_var F x (sum_type t u)) else None
      | _, _ => None
      end
  | SSeq s t => match check F s with Some G => check G t | None => None end
  | SIf c s t =>
      if cond_fits F c then
        match check (assume c true F) s, check (assume c false F) t with
        | Some G, Some H => let K := common false G H in if stronger G K && stronger H K then Some K else None
        | _, _ => None
        end
      else None
  | SWhile c b =>
      (fix loop (n : nat) (K : facts) : option facts :=
         match n with
         | O => None
         | S n' =>
             if cond_fits K c && stronger F K then
               match check (assume c true K) b with
               | Some G => if stronger G K then Some (assume c false K) else loop n' (common (Nat.leb n 6) K G)
               | None => None
               end
             else None
         end) tries F
  end.
(** accepted; accepted, with all objects destructed at the end *)
Definition accepted (s : c_stmt) : bool := match check facts_start s with Some _ => true | None => false end.
Definition accepted_clean (s : c_stmt) : bool := match check facts_start s with Some F => match k_own F with [] => true | _ => false end | None => false end.
