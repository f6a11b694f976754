(** Specification of C programs that use the whole library: the same programs over integers, sets of squares and abstract positions. *)
From Verif Require Export SpecCall SpecHeap MCProgram MCThreads.

Record p_state := PState { ps_heap : hclient; ps_val : v_state }.
Definition p_state_start : p_state := PState hclient_start v_start.

(** an argument that has to be an integer of some kind *)
Definition int_arg (ok : N -> bool) (st : v_state) (a : c_arg) : option N :=
  match arg_of st a with Some (VInt n) => if ok n then Some n else None | _ => None end.
Definition color_number (c : color) : N := match c with Black => 1 | White => 2 end.
Definition color_of_number (n : N) : color := if n =? 1 then Black else White.
Definition squares_val (f : square -> bool) : c_val := let b := board_words f in VBits (bb0 b) (bb1 b).
Definition occupied (x : apos) (sq : square) : bool := match a_board x sq with Some _ => true | None => false end.
(** the answer to a question about a position; [None]: the argument breaks the contract *)
Definition a_reply (st : v_state) (q : c_query) : option (apos -> c_val) :=
  match q with
  | KPieceAt a => option_map (fun n x => VInt (piece_byte (a_board x (Square n)))) (int_arg square_int st a)
  | KPly => Some (fun x => VInt (a_ply x))
  | KSideToMove => Some (fun x => VInt (color_number (a_side x)))
  | KHand a => option_map (fun n x => VHand (map (a_hand x (color_of_number n)) hand_kinds ++ [0])) (int_arg color_int st a)
  | KLastMove => Some (fun x => VInt (move_number (a_last x)))
  | KOccupied => Some (fun x => squares_val (occupied x))
  | KVacant => Some (fun x => squares_val (fun sq => negb (occupied x sq)))
  | KPlayer a => option_map (fun n x => squares_val (fun sq => match a_board x sq with Some (_, c) => color_number c =? n | None => false end)) (int_arg color_int st a)
  | KPieces a => option_map (fun n x => squares_val (fun sq => piece_byte (a_board x sq) =? n)) (int_arg piece_int st a)
  end.
Definition on_place {T} (st : hclient) (pl : c_place) (f : apos -> T) : outcome T :=
  match pl with
  | InVar i => match cl_pos (hc_local st) i with Some x => Fine (f x) | None => Unset end
  | Inside h => on_object st h (fun _ _ x _ => f x)
  | Initially h => on_object st h (fun _ x0 _ _ => f x0)
  end.
Definition new_pos (st : hclient) (i : nat) (x : apos) : hclient := put_local st (set_pos (hc_local st) i x).
Definition new_text (st : hclient) (t : nat) (x : apos) : hclient := put_local st (set_text (hc_local st) t (sfen_text x)).
(** a call: [Unset] if something is used before it is set or an argument breaks the contract *)
Definition p_meaning (st : p_state) (c : p_call) : outcome (hclient * c_val) :=
  let h := ps_heap st in
  let with_arg ok a (f : N -> outcome (hclient * c_val)) := match int_arg ok (ps_val st) a with Some n => f n | None => Unset end in
  match c with
  | PStartpos i => Fine (new_pos h i a_opening, VVoid)
  | PMove i a => with_arg move_int a (fun n =>
      match cl_pos (hc_local h) i with
      | Some x => let (x', b) := a_try x (unpack (CompactMove n)) in Fine (new_pos h i x', VBool b)
      | None => Unset
      end)
  | PCopy i pl => on_place h pl (fun x => (new_pos h i x, VVoid))
  | PAsk pl q => match a_reply (ps_val st) q with Some f => on_place h pl (fun x => (h, f x)) | None => Unset end
  | PKinds pl a => with_arg kind_int a (fun n =>
      on_place h pl (fun x => (h, squares_val (fun sq => match a_board x sq with Some (k, _) => kind_number k =? n | None => false end))))
  | PSfen pl t => on_place h pl (fun x => (new_text h t x, VVoid))
  | QStartpos g =>
      let id := hc_next h in
      Fine (put_handle (HClient (hc_local h) (hc_handle h) (fun j => if j =? id then Some (a_opening, a_opening, []) else hc_object h j) (id + 1)) g id, VVoid)
  | QDestruct g => on_object h g (fun id _ _ _ => (put_object h id None, VVoid))
  | QAlias g f => match hc_handle h f with Some id => Fine (put_handle h g id, VVoid) | None => Misused end
  | QMove g a => with_arg move_int a (fun n =>
      on_object h g (fun id x0 x ms =>
        let mv := unpack (CompactMove n) in
        let (x', b) := a_try x mv in (put_object h id (Some (x0, x', if b then ms ++ [mv] else ms)), VBool b)))
  | QAsk g q => match a_reply (ps_val st) q with Some f => on_object h g (fun _ _ x _ => (h, f x)) | None => Unset end
  | QSfen g t => on_object h g (fun _ _ x _ => (new_text h t x, VVoid))
  end.

(** ** Statements *)
Definition number_of (st : v_state) (a : c_arg) : option Z :=
  match arg_of st a with
  | Some (VInt n) => Some (Z.of_N n)
  | Some (VSigned z) => Some z
  | Some (VBool true) => Some 1%Z
  | Some (VBool false) => Some 0%Z
  | _ => None
  end.
Definition holds (st : v_state) (c : c_cond) : option bool :=
  match c with
  | IsTrue a => match number_of st a with Some x => Some (if Z.eq_dec x 0 then false else true) | None => None end
  | IsEqual a b => match number_of st a, number_of st b with Some x, Some y => Some (if Z.eq_dec x y then true else false) | _, _ => None end
  | IsLess a b => match number_of st a, number_of st b with Some x, Some y => Some (if Z_lt_dec x y then true else false) | _, _ => None end
  end.
Definition is_pointer (v : c_val) : bool := match v with VPtr _ => true | _ => false end.
(** [Fine None]: not finished in [fuel] nested steps *)
Fixpoint runs (fuel : nat) (s : c_stmt) (st : p_state) : outcome (option p_state) :=
  match fuel with
  | O => Fine None
  | S fuel =>
      let first s (next : p_state -> outcome (option p_state)) :=
        match runs fuel s st with Fine (Some st') => next st' | Fine None => Fine None | Misused => Misused | Unset => Unset end in
      match s with
      | SSkip => Fine (Some st)
      | SValue o => match v_meaning (ps_val st) o with Some v => Fine (Some (PState (ps_heap st) v)) | None => Unset end
      | SCall x c =>
          match p_meaning st c with
          | Fine (h, v) => Fine (Some (PState h (let_var (ps_val st) x v)))
          | Misused => Misused
          | Unset => Unset
          end
      | SSet x a =>
          match arg_of (ps_val st) a with
          | Some v => if is_pointer v then Unset else Fine (Some (PState (ps_heap st) (let_var (ps_val st) x v)))
          | None => Unset
          end
      | SAdd x a b =>
          match number_of (ps_val st) a, number_of (ps_val st) b with
          | Some y, Some z => Fine (Some (PState (ps_heap st) (let_var (ps_val st) x (VInt (Z.to_N ((y + z) mod 256))))))
          | _, _ => Unset
          end
      | SSeq s t => first s (runs fuel t)
      | SIf c s t => match holds (ps_val st) c with Some true => runs fuel s st | Some false => runs fuel t st | None => Unset end
      | SWhile c b => match holds (ps_val st) c with Some true => first b (runs fuel (SWhile c b)) | Some false => Fine (Some st) | None => Unset end
      end
  end.

(** ** The variables of a program: [n] positions, [k] texts, [i] hands and [j] bitboards *)
Record p_size := PSize { sz_pos : nat; sz_text : nat; sz_hand : nat; sz_bits : nat }.
Definition place_within (Z : p_size) (pl : c_place) : Prop := match pl with InVar i => (i < sz_pos Z)%nat | _ => True end.
Definition call_within (Z : p_size) (c : p_call) : Prop :=
  match c with
  | PStartpos i | PMove i _ => (i < sz_pos Z)%nat
  | PCopy i pl => (i < sz_pos Z)%nat /\ place_within Z pl
  | PAsk pl _ | PKinds pl _ => place_within Z pl
  | PSfen pl t => place_within Z pl /\ (t < sz_text Z)%nat
  | QSfen _ t => (t < sz_text Z)%nat
  | QStartpos _ | QDestruct _ | QAlias _ _ | QMove _ _ | QAsk _ _ => True
  end.
Fixpoint stmt_within (Z : p_size) (s : c_stmt) : Prop :=
  match s with
  | SValue o => op_within (sz_hand Z) (sz_bits Z) o
  | SCall _ c => call_within Z c
  | SSeq s t | SIf _ s t => stmt_within Z s /\ stmt_within Z t
  | SWhile _ s => stmt_within Z s
  | SSkip | SSet _ _ | SAdd _ _ _ => True
  end.
Definition all_placed (A : N) (env : p_env) (Z : p_size) (m : mem) : Prop :=
  placed A (p_positions env) (sz_pos Z) (sz_text Z) m /\ v_placed A (p_objects env) (sz_hand Z) (sz_bits Z) m /\
  forall v o y, variable (sz_pos Z) (sz_text Z) v -> v_known (sz_hand Z) (sz_bits Z) o ->
    in_variable A (p_positions env) v y -> SpecCall.in_object (p_objects env) o y -> False.
(** the byte is in a variable of the program or in an object it has on the heap *)
Definition own_byte (A : N) (B : box_layout) (env : p_env) (Z : p_size) (w : world) (y : N) : Prop :=
  SpecHeap.in_object B w y \/ (exists v, variable (sz_pos Z) (sz_text Z) v /\ in_variable A (p_positions env) v y) \/
  (exists o, v_known (sz_hand Z) (sz_bits Z) o /\ SpecCall.in_object (p_objects env) o y).
(** everything the program has is as in the state *)
Definition p_shows (A : N) (E : endian) (B : box_layout) (env : p_env) (Z : p_size) (w : p_world) (st : p_state) : Prop :=
  let m := w_mem (pw_heap w) in
  v_shows E (p_objects env) (sz_hand Z) (sz_bits Z) (pw_values w) (ps_val st) /\
  (forall i x, (i < sz_pos Z)%nat -> cl_pos (hc_local (ps_heap st)) i = Some x -> shows A E m (at_pos (p_positions env) i) x) /\
  (forall t l, (t < sz_text Z)%nat -> cl_text (hc_local (ps_heap st)) t = Some l -> string_at m (at_text (p_positions env) t) l) /\
  (forall id x0 x ms, hc_object (ps_heap st) id = Some (x0, x, ms) ->
     exists a, w_live (pw_heap w) id = Some (a, ms) /\ object_at A E B m a x0 x) /\
  (forall id, hc_object (ps_heap st) id = None -> w_live (pw_heap w) id = None).

(** does a function take a game? *)
Definition about_games (e : rexport) : bool :=
  existsb (fun t => match points_to t with Some name => String.eqb name "Game" || String.eqb name "PartialGame" | None => false end) (re_args e).

(** ** Running out of memory: the program comes to a [Position_startpos] for which the allocator has no block *)
Fixpoint t_steps (P : profile) (A : N) (E : endian) (B : box_layout) (env : p_env) (allocs : nat -> mem -> option N) (pads : nat -> N -> N)
    (n : nat) (code : list c_stmt) (w : p_world) : res (list c_stmt * p_world) :=
  match n with
  | O => Ret (code, w)
  | S n => '(code', w') <- t_step P A E B env allocs pads code w;; t_steps P A E B env allocs pads n code' w'
  end.
(** what is next to do is a [Position_startpos], and there is no block for it *)
Definition no_block (allocs : nat -> mem -> option N) (code : list c_stmt) (w : p_world) : Prop :=
  exists x h rest, code = SCall x (QStartpos h) :: rest /\ allocs (pw_tick w) (w_mem (pw_heap w)) = None.
Definition p_out_of_memory (P : profile) (A : N) (E : endian) (B : box_layout) (env : p_env) (allocs : nat -> mem -> option N) (pads : nat -> N -> N)
    (s : c_stmt) (w : p_world) : Prop :=
  exists n code w', t_steps P A E B env allocs pads n [s] w = Ret (code, w') /\ no_block allocs code w'.
