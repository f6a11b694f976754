(** Model of /repo/shogi_core/src/mv.rs *)
From Verif Require Export Machine MCommon MPieceKind MPiece MSquare.

(** mv.rs:9-28 [enum Move] *)
Inductive move :=
| Normal (from to : square) (promote : bool)
| Drop (p : piece) (to : square).

(** mv.rs:39-44 [Move::from] *)
Definition mv_from (m : move) : option square :=
  match m with Normal from _ _ => Some from | Drop _ _ => None end.

(** mv.rs:54-59 [Move::to] *)
Definition mv_to (m : move) : square :=
  match m with Normal _ to _ => to | Drop _ to => to end.

(** mv.rs:62-64 [Move::is_promoting] *)
Definition mv_is_promoting (m : move) : bool :=
  match m with Normal _ _ true => true | _ => false end.

(** mv.rs:68-70 [Move::is_drop] *)
Definition mv_is_drop (m : move) : bool :=
  match m with Drop _ _ => true | _ => false end.

(** mv.rs:176-178 [struct CompactMove(NonZeroU16)] *)
Record compact_move := CompactMove { cm_repr : N }.

(** [promote as u16] *)
Definition bool_as_u16 (b : bool) : N := if b then 1 else 0.

(** [(promote as u16) << 15 | (from.index() as u16) << 8 | to.index() as u16] (mv.rs:184,225) *)
Definition cm_normal_value (P : profile) (from to : square) (promote : bool) : res N :=
  a <- shl_w P 16 (bool_as_u16 promote) 15;;
  fi <- sq_index P from;;
  b <- shl_w P 16 fi 8;;
  ti <- sq_index P to;;
  Ret (N.lor (N.lor a b) ti).

(** [(piece.as_u8() as u16) << 8 | 128 | to.index() as u16] (mv.rs:186,241) *)
Definition cm_drop_value (P : profile) (p : piece) (to : square) : res N :=
  a <- shl_w P 16 (piece_as_u8 p) 8;;
  ti <- sq_index P to;;
  Ret (N.lor (N.lor a 128) ti).

(** mv.rs:180-191 [From<Move> for CompactMove] *)
Definition cm_of_move (P : profile) (m : move) : res compact_move :=
  value <- match m with
           | Normal from to promote => cm_normal_value P from to promote
           | Drop p to => cm_drop_value P p to
           end;;
  n <- nonzero_new_unchecked value;;
  Ret (CompactMove n).

(** mv.rs:224-228 [CompactMove::normal] *)
Definition cm_normal (P : profile) (from to : square) (promote : bool) : res compact_move :=
  value <- cm_normal_value P from to promote;;
  n <- nonzero_new_unchecked value;;
  Ret (CompactMove n).

(** mv.rs:240-244 [CompactMove::drop] *)
Definition cm_drop (P : profile) (p : piece) (to : square) : res compact_move :=
  value <- cm_drop_value P p to;;
  n <- nonzero_new_unchecked value;;
  Ret (CompactMove n).

(** mv.rs:282-284 [CompactMove::is_drop] *)
Definition cm_is_drop (m : compact_move) : bool := negb (N.land (cm_repr m) 128 =? 0).

(** mv.rs:275-277 [CompactMove::is_promoting] *)
Definition cm_is_promoting (m : compact_move) : bool := negb (N.land (cm_repr m) 32768 =? 0).

(** mv.rs:267-271 [CompactMove::to] *)
Definition cm_to (m : compact_move) : res square :=
  sq_from_u8_unchecked (cast_w 8 (N.land (cm_repr m) 127)).

(** mv.rs:247-257 [CompactMove::from] *)
Definition cm_from (P : profile) (m : compact_move) : res (option square) :=
  let inner := cm_repr m in
  if cm_is_drop m then Ret None
  else
    a <- shr_w P 16 inner 8;;
    s <- sq_from_u8_unchecked (cast_w 8 (N.land a 127));;
    Ret (Some s).

(** mv.rs:261-263 [CompactMove_from], C interface *)
Definition CompactMove_from (P : profile) (m : compact_move) : res option_square :=
  s <- cm_from P m;; Ret (os_from s).

(** mv.rs:193-210 [From<CompactMove> for Move] *)
Definition move_of_cm (P : profile) (m : compact_move) : res move :=
  to <- cm_to m;;
  let inner := cm_repr m in
  if cm_is_drop m then
    a <- shr_w P 16 inner 8;;
    p <- piece_from_u8_unchecked (cast_w 8 a);;
    Ret (Drop p to)
  else
    a <- shr_w P 16 inner 8;;
    from <- sq_from_u8_unchecked (cast_w 8 (N.land a 127));;
    let promote := negb (N.land inner 32768 =? 0) in
    Ret (Normal from to promote).

(** mv.rs:303-305 [struct OptionCompactMove(u16)] *)
Record option_compact_move := OptionCompactMove { ocm_repr : N }.

(** mv.rs:307-315 [From<Option<CompactMove>> for OptionCompactMove] *)
Definition ocm_from (m : option compact_move) : option_compact_move :=
  OptionCompactMove (match m with Some r => cm_repr r | None => 0 end).

(** mv.rs:317-322 [From<OptionCompactMove> for Option<CompactMove>] *)
Definition ocm_into (o : option_compact_move) : option compact_move :=
  match nonzero_new (ocm_repr o) with Some n => Some (CompactMove n) | None => None end.

(** derived [PartialEq] (mv.rs:8,177,304) *)
Definition move_eqb (a b : move) : bool :=
  match a, b with
  | Normal f1 t1 p1, Normal f2 t2 p2 => sq_eqb f1 f2 && sq_eqb t1 t2 && Bool.eqb p1 p2
  | Drop p1 t1, Drop p2 t2 => piece_eqb p1 p2 && sq_eqb t1 t2
  | _, _ => false
  end.
Definition cm_eqb (a b : compact_move) : bool := cm_repr a =? cm_repr b.
Definition ocm_eqb (a b : option_compact_move) : bool := ocm_repr a =? ocm_repr b.

(** mv.rs:146-167 [ToUsi for Move] *)
Definition move_to_usi {W} (P : profile) (K : sink W) (m : move) : writer W :=
  match m with
  | Normal from to promote =>
      sq_to_usi P K from ?;
      sq_to_usi P K to ?;
      (if promote then write_ascii_byte K (byte "+") else wok) ?;
      wok
  | Drop p to =>
      wbind (piece_piece_kind p) (fun k =>
      pk_to_usi P K k ?;
      write_ascii_byte K (byte "*") ?;
      sq_to_usi P K to ?;
      wok)
  end.

(** mv.rs:293-297 [ToUsi for CompactMove] *)
Definition cm_to_usi {W} (P : profile) (K : sink W) (m : compact_move) : writer W :=
  wbind (move_of_cm P m) (move_to_usi P K).
