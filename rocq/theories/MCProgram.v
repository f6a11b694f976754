(** Model of C programs that use the whole library: values, hands and bitboards, positions in variables and positions on the heap, with
    the results of calls flowing through variables into the arguments of others, and with branches and loops. *)
From Verif Require Export MCHeap MCCall.

(** ** Calls about positions. Arguments other than pointers to positions are as in [MCCall]. *)
(** the [PartialPosition] a call reads: a variable, [Position_inner(h)] or [Position_initial_position(h)] *)
Inductive c_place := InVar (i : nat) | Inside (h : nat) | Initially (h : nat).
Inductive c_query := KPieceAt (a : c_arg) | KPly | KSideToMove | KHand (a : c_arg) | KLastMove | KOccupied | KVacant | KPlayer (a : c_arg) | KPieces (a : c_arg).
Inductive p_call :=
| PStartpos (i : nat)                   (* PartialPosition_startpos(&position i) *)
| PMove (i : nat) (a : c_arg)           (* PartialPosition_make_compact_move(&position i, a) *)
| PCopy (i : nat) (pl : c_place)        (* position i = *place *)
| PAsk (pl : c_place) (q : c_query)     (* PartialPosition_piece_at(place, a) and so on *)
| PKinds (pl : c_place) (a : c_arg)     (* PartialPosition_piece_kind_bitboard(place, a) *)
| PSfen (pl : c_place) (t : nat)        (* PartialPosition_to_sfen_c(place, text t) *)
| QStartpos (h : nat)                   (* h = Position_startpos() *)
| QDestruct (h : nat)                   (* Position_destruct(h) *)
| QAlias (h g : nat)                    (* h = g *)
| QMove (h : nat) (a : c_arg)           (* Position_make_compact_move(h, a) *)
| QAsk (h : nat) (q : c_query)          (* Position_piece_at(h, a) and so on *)
| QSfen (h : nat) (t : nat).            (* Position_to_sfen_c(h, text t) *)

Record p_env := PEnv { p_positions : c_env; p_objects : v_env }.
(** [pw_tick] counts the calls, for the allocator and the padding *)
Record p_world := PWorld { pw_heap : world; pw_var : nat -> option c_val; pw_tick : nat }.
Definition pw_values (w : p_world) : v_world := VWorld (w_mem (pw_heap w)) (pw_var w).
Definition set_pw_var (w : p_world) (x : nat) (v : c_val) : p_world :=
  PWorld (pw_heap w) (fun y => if Nat.eqb y x then Some v else pw_var w y) (pw_tick w).
Definition p_start (m : mem) : p_world := PWorld (world_start m) (fun _ => None) 0.

Definition place_address (B : box_layout) (env : p_env) (w : world) (pl : c_place) : res N :=
  match pl with
  | InVar i => Ret (at_pos (p_positions env) i)
  | Inside h => Position_inner B w (w_handle w h)
  | Initially h => Position_initial_position B w (w_handle w h)
  end.
(** the arguments as the callee gets them *)
Definition query_of (env : p_env) (w : p_world) (q : c_query) : res h_ask :=
  let get a := arg_value (p_objects env) (pw_values w) a in
  match q with
  | KPieceAt a => v <- get a;; sq <- as_square v;; Ret (HPieceAt sq)
  | KPly => Ret HPly
  | KSideToMove => Ret HSideToMove
  | KHand a => v <- get a;; c <- as_color v;; Ret (HHand c)
  | KLastMove => Ret HLastMove
  | KOccupied => Ret HOccupied
  | KVacant => Ret HVacant
  | KPlayer a => v <- get a;; c <- as_color v;; Ret (HPlayer c)
  | KPieces a => v <- get a;; p <- as_piece v;; Ret (HPieces p)
  end.
(** position.rs:499, 512, 538, 572, 618, 625, 632, 649, 693 *)
Definition pp_ask (P : profile) (q : h_ask) (s : partial_position) : res c_result :=
  match q with
  | HPieceAt sq => x <- PartialPosition_piece_at P s sq;; Ret (CPiece x)
  | HPly => Ret (CNumber (ply s))
  | HSideToMove => Ret (CColor (side_to_move s))
  | HHand c => h <- hand_of_a_player P s c;; Ret (CHandOf h)
  | HLastMove => Ret (CLast (PartialPosition_last_compact_move s))
  | HOccupied => b <- occupied_bitboard s;; Ret (CSquares b)
  | HVacant => b <- vacant_bitboard s;; Ret (CSquares b)
  | HPlayer c => b <- player_bitboard P s c;; Ret (CSquares b)
  | HPieces p => b <- piece_bitboard P s p;; Ret (CSquares b)
  end.
(** what C gets *)
Definition c_value (r : c_result) : c_val :=
  match r with
  | CNothing => VVoid
  | CBool b => VBool b
  | CPiece p => VInt (op_repr p)
  | CNumber n => VInt n
  | CColor c => VInt (color_as_u8 c)
  | CHandOf h => VHand (hand_bytes h)
  | CLast m => VInt (ocm_repr m)
  | CSquares b => of_bits b
  end.

Definition p_step (P : profile) (A : N) (E : endian) (B : box_layout) (env : p_env) (alloc : mem -> option N) (pad : N -> N) (c : p_call) (w : p_world)
    : res (world * c_val) :=
  let get a := arg_value (p_objects env) (pw_values w) a in
  let h_step o := '(w', r) <- h_step P A E B (p_positions env) alloc pad o (pw_heap w);; Ret (w', c_value r) in
  let m := w_mem (pw_heap w) in
  match c with
  | PStartpos i => h_step (HLocal (CStartpos i))
  | PMove i a => v <- get a;; mv <- as_move v;; h_step (HLocal (CMove i mv))
  | PCopy i pl => p <- place_address B env (pw_heap w) pl;; m' <- c_assign A m (at_pos (p_positions env) i) p;; Ret (with_mem (pw_heap w) m', VVoid)
  | PAsk pl q => q <- query_of env w q;; p <- place_address B env (pw_heap w) pl;; r <- pp_query A E (pp_ask P q) m p;; Ret (pw_heap w, c_value r)
  | PKinds pl a =>
      v <- get a;; k <- as_kind v;; p <- place_address B env (pw_heap w) pl;; b <- pp_query A E (fun s => piece_kind_bitboard P s k) m p;; Ret (pw_heap w, of_bits b)
  | PSfen pl t =>
      p <- place_address B env (pw_heap w) pl;; m' <- PartialPosition_to_sfen_c P A E m p (at_text (p_positions env) t);; Ret (with_mem (pw_heap w) m', VVoid)
  | QStartpos h => h_step (HNew h)
  | QDestruct h => h_step (HFree h)
  | QAlias h g => h_step (HAlias h g)
  | QMove h a => v <- get a;; mv <- as_move v;; h_step (HMove h mv)
  | QAsk h q => q <- query_of env w q;; h_step (HAsk h q)
  | QSfen h t => h_step (HText h t)
  end.

(** ** Statements *)
(** the integer an expression stands for in a comparison or a sum *)
Definition as_number (v : c_val) : res Z :=
  match v with VInt n => Ret (Z.of_N n) | VSigned z => Ret z | VBool b => Ret (if b then 1 else 0)%Z | _ => UB end.
Inductive c_cond := IsTrue (a : c_arg) | IsEqual (a b : c_arg) | IsLess (a b : c_arg).
Inductive c_stmt :=
| SSkip
| SValue (o : v_op)                     (* x = f(args), or an assignment to or from an object *)
| SCall (x : nat) (c : p_call)          (* x = c *)
| SSet (x : nat) (a : c_arg)            (* x = a *)
| SAdd (x : nat) (a b : c_arg)          (* x = a + b, where x is a uint8_t *)
| SSeq (s t : c_stmt)
| SIf (c : c_cond) (s t : c_stmt)
| SWhile (c : c_cond) (s : c_stmt).
Definition number_value (env : p_env) (w : p_world) (a : c_arg) : res Z := v <- arg_value (p_objects env) (pw_values w) a;; as_number v.
Definition cond_value (env : p_env) (w : p_world) (c : c_cond) : res bool :=
  match c with
  | IsTrue a => x <- number_value env w a;; Ret (negb (x =? 0)%Z)
  | IsEqual a b => x <- number_value env w a;; y <- number_value env w b;; Ret (x =? y)%Z
  | IsLess a b => x <- number_value env w a;; y <- number_value env w b;; Ret (x <? y)%Z
  end.
(** [Ret None]: still running when the fuel is used up *)
Fixpoint exec (P : profile) (A : N) (E : endian) (B : box_layout) (env : p_env) (allocs : nat -> mem -> option N) (pads : nat -> N -> N)
    (fuel : nat) (s : c_stmt) (w : p_world) : res (option p_world) :=
  match fuel with
  | O => Ret None
  | S fuel =>
      let exec := exec P A E B env allocs pads fuel in
      match s with
      | SSkip => Ret (Some w)
      | SValue o =>
          v <- v_step P A E (p_objects env) o (pw_values w);;
          Ret (Some (PWorld (with_mem (pw_heap w) (v_mem v)) (v_var v) (pw_tick w)))
      | SCall x c =>
          '(h, v) <- p_step P A E B env (allocs (pw_tick w)) (pads (pw_tick w)) c w;;
          Ret (Some (set_pw_var (PWorld h (pw_var w) (S (pw_tick w))) x v))
      | SSet x a => v <- arg_value (p_objects env) (pw_values w) a;; Ret (Some (set_pw_var w x v))
      | SAdd x a b =>
          y <- number_value env w a;; z <- number_value env w b;; Ret (Some (set_pw_var w x (VInt (Z.to_N ((y + z) mod 256)))))
      | SSeq s t => r <- exec s w;; match r with Some w' => exec t w' | None => Ret None end
      | SIf c s t => b <- cond_value env w c;; exec (if b then s else t) w
      | SWhile c b =>
          g <- cond_value env w c;;
          if (g : bool) then r <- exec b w;; match r with Some w' => exec s w' | None => Ret None end else Ret (Some w)
      end
  end.

(** the functions of the library a call uses *)
Open Scope string_scope.
Definition place_symbols (pl : c_place) : list string :=
  match pl with InVar _ => [] | Inside _ => ["Position_inner"] | Initially _ => ["Position_initial_position"] end.
Definition query_symbol (q : c_query) : string :=
  match q with
  | KPieceAt _ => "piece_at" | KPly => "ply" | KSideToMove => "side_to_move" | KHand _ => "hand_of_a_player" | KLastMove => "last_compact_move"
  | KOccupied => "occupied_bitboard" | KVacant => "vacant_bitboard" | KPlayer _ => "player_bitboard" | KPieces _ => "piece_bitboard"
  end.
Definition call_symbols (c : p_call) : list string :=
  match c with
  | PStartpos _ => ["PartialPosition_startpos"]
  | PMove _ _ => ["PartialPosition_make_compact_move"]
  | PCopy _ pl => place_symbols pl
  | PAsk pl q => ("PartialPosition_" ++ query_symbol q) :: place_symbols pl
  | PKinds pl _ => "PartialPosition_piece_kind_bitboard" :: place_symbols pl
  | PSfen pl _ => "PartialPosition_to_sfen_c" :: place_symbols pl
  | QStartpos _ => ["Position_startpos"]
  | QDestruct _ => ["Position_destruct"]
  | QAlias _ _ => []
  | QMove _ _ => ["Position_make_compact_move"]
  | QAsk _ q => ["Position_" ++ query_symbol q]
  | QSfen _ _ => ["Position_to_sfen_c"]
  end.
Close Scope string_scope.
