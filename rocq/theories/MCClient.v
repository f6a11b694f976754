(** Model of the C interface at work: positions in the memory of a C program, and the exported functions called with
    pointers to them. [A] is the alignment of [uint64_t] on the target, [E] its byte order. *)
From Verif Require Export MCAbi MCRuntime.

Inductive endian := Little | Big.
(** the [w] bytes of an unsigned integer *)
Fixpoint le_bytes (w : nat) (v : N) : list N :=
  match w with O => [] | S w => v mod 256 :: le_bytes w (v / 256) end.
Definition int_bytes (E : endian) (w : nat) (v : N) : list N :=
  match E with Little => le_bytes w v | Big => rev (le_bytes w v) end.
Fixpoint le_value (l : list N) : N := match l with [] => 0 | b :: rest => b + 256 * le_value rest end.
Definition int_value (E : endian) (l : list N) : N :=
  match E with Little => le_value l | Big => le_value (rev l) end.

Definition read_bytes (m : mem) (a n : N) : res (list N) := map_res (fun i => mem_read m (a + i)) (range 0 n).
Fixpoint write_bytes (m : mem) (a : N) (l : list N) : res mem :=
  match l with
  | [] => Ret m
  | b :: rest => m' <- mem_write m a b;; write_bytes m' (a + 1) rest
  end.

(** the layouts of the fields of [PartialPosition], its layout, and the offsets of the fields *)
Definition pp_field_lays (A : N) : list lay :=
  match look "PartialPosition" rust_types with
  | Some (RReprC fs) => match all_some (map (fun f => rust_lay 9 A (snd f)) fs) with Some ls => ls | None => [] end
  | _ => []
  end.
Definition pp_lay (A : N) : lay := lay_struct (pp_field_lays A).
Definition pp_offsets (A : N) : list N := lay_place 0 (pp_field_lays A).

(** the bytes of each field, in the order of declaration *)
Definition bitboard_bytes (E : endian) (b : bitboard) : list N := int_bytes E 8 (bb0 b) ++ int_bytes E 8 (bb1 b).
Definition pp_field_bytes (E : endian) (s : partial_position) : list (list N) := [
  [color_as_u8 (pp_side s)];
  int_bytes E 2 (pp_ply s);
  flat_map hand_bytes (pp_hands s);
  map op_repr (pp_board s);
  flat_map (bitboard_bytes E) (pp_player_bb s);
  flat_map (bitboard_bytes E) (pp_piece_bb s);
  int_bytes E 2 (ocm_repr (pp_last_move s));
  map os_repr (pp_king_square s)
].
(** the bytes of the whole object; [pad] says what the padding bytes are, which the compiler is free to choose *)
Definition pp_image (A : N) (E : endian) (pad : N -> N) (s : partial_position) : list N :=
  map (fun i =>
         match find (fun x => (fst x <=? i) && (i <? fst x + N.of_nat (length (snd x)))) (combine (pp_offsets A) (pp_field_bytes E s)) with
         | Some (o, l) => nth (N.to_nat (i - o)) l 0
         | None => pad i mod 256
         end)
      (range 0 (lay_size (pp_lay A))).
(** references must be aligned *)
Definition check_aligned (A a : N) : res unit := if a mod lay_align (pp_lay A) =? 0 then Ret tt else UB.
Definition store_pp (A : N) (E : endian) (pad : N -> N) (m : mem) (a : N) (s : partial_position) : res mem :=
  check_aligned A a;;; write_bytes m a (pp_image A E pad s).

(** the other way: a byte that is no [Color] is undefined behaviour, everything else is some value *)
Definition color_from_byte (b : N) : res color := match b with 1 => Ret Black | 2 => Ret White | _ => UB end.
Fixpoint chunks (k : nat) (w : nat) (l : list N) : list (list N) :=
  match k with O => [] | S k => firstn w l :: chunks k w (skipn w l) end.
Definition bitboard_from_bytes (E : endian) (l : list N) : bitboard :=
  Bitboard (int_value E (firstn 8 l)) (int_value E (skipn 8 l)).
Definition load_pp (A : N) (E : endian) (m : mem) (a : N) : res partial_position :=
  check_aligned A a;;;
  fs <- map_res (fun x => read_bytes m (a + fst x) (lay_size (snd x))) (combine (pp_offsets A) (pp_field_lays A));;
  let f i := nth i fs [] in
  side <- color_from_byte (nth 0 (f 0%nat) 0);;
  Ret (PartialPosition side (int_value E (f 1%nat)) (map Hand (chunks 2 8 (f 2%nat))) (map OptionPiece (f 3%nat))
         (map (bitboard_from_bytes E) (chunks 2 16 (f 4%nat))) (map (bitboard_from_bytes E) (chunks 14 16 (f 5%nat)))
         (OptionCompactMove (int_value E (f 6%nat))) (map OptionSquare (f 7%nat))).

(** ** The exported functions of [PartialPosition] with the pointer they get. [m] is the memory of the program. *)

(** position.rs:483-485 [PartialPosition_startpos] *)
Definition PartialPosition_startpos (P : profile) (A : N) (E : endian) (pad : N -> N) (m : mem) (buf : N) : res mem :=
  s <- pp_startpos P;; store_pp A E pad m buf s.
(** position.rs:762-765 [PartialPosition_make_compact_move] *)
Definition PartialPosition_make_compact_move (P : profile) (A : N) (E : endian) (pad : N -> N) (m : mem) (self : N)
    (mv : compact_move) : res (mem * bool) :=
  s <- load_pp A E m self;;
  '(s', ok) <- make_compact_move P s mv;;
  m' <- store_pp A E pad m self s';;
  Ret (m', ok).
(** the functions taking [&self]: position.rs:499, 512, 538, 572, 618, 625, 632, 649, 665, 693 *)
Definition pp_query {T} (A : N) (E : endian) (f : partial_position -> res T) (m : mem) (self : N) : res T :=
  s <- load_pp A E m self;; f s.
(** position.rs:831-853 [PartialPosition_to_sfen_c] *)
Definition do_writes (log : list (N * N)) (m : mem) : res mem := for_each log (fun w m => mem_write m (fst w) (snd w)) m.
Definition PartialPosition_to_sfen_c (P : profile) (A : N) (E : endian) (m : mem) (self ptr : N) : res mem :=
  s <- load_pp A E m self;;
  log <- to_sfen_c P s ptr;;
  do_writes log m.
(** assignment of one [PartialPosition] to another in C *)
Definition c_assign (A : N) (m : mem) (dest src : N) : res mem :=
  '(m', _) <- memcpy m dest src (lay_size (pp_lay A));; Ret m'.

(** ** A C program using several positions and text buffers: position [i] lives at [at_pos i], text [i] at [at_text i]. *)
Inductive c_set := COccupied | CVacant | CPlayer (c : color) | CPieces (p : piece) | CKinds (k : piece_kind).
Inductive c_op :=
| CStartpos (i : nat)
| CMove (i : nat) (mv : compact_move)
| CAssign (i j : nat)                   (* position i = position j *)
| CPieceAt (i : nat) (sq : square)
| CPly (i : nat)
| CSideToMove (i : nat)
| CHand (i : nat) (c : color)
| CLastMove (i : nat)
| CBits (i : nat) (q : c_set)
| CToSfen (i : nat) (t : nat).          (* into text buffer t *)
(** what a call returns *)
Inductive c_result :=
| CNothing | CBool (b : bool) | CPiece (p : option_piece) | CNumber (n : N) | CColor (c : color) | CHandOf (h : hand)
| CLast (m : option_compact_move) | CSquares (b : bitboard).
Record c_env := CEnv { at_pos : nat -> N; at_text : nat -> N }.
Definition c_bitboard (P : profile) (q : c_set) (s : partial_position) : res bitboard :=
  match q with
  | COccupied => occupied_bitboard s
  | CVacant => vacant_bitboard s
  | CPlayer c => player_bitboard P s c
  | CPieces p => piece_bitboard P s p
  | CKinds k => piece_kind_bitboard P s k
  end.
(** [pad] may differ from call to call *)
Definition c_step (P : profile) (A : N) (E : endian) (env : c_env) (pad : N -> N) (o : c_op) (m : mem) : res (mem * c_result) :=
  match o with
  | CStartpos i => m' <- PartialPosition_startpos P A E pad m (at_pos env i);; Ret (m', CNothing)
  | CMove i mv => '(m', b) <- PartialPosition_make_compact_move P A E pad m (at_pos env i) mv;; Ret (m', CBool b)
  | CAssign i j => m' <- c_assign A m (at_pos env i) (at_pos env j);; Ret (m', CNothing)
  | CPieceAt i sq => p <- pp_query A E (fun s => PartialPosition_piece_at P s sq) m (at_pos env i);; Ret (m, CPiece p)
  | CPly i => n <- pp_query A E (fun s => Ret (ply s)) m (at_pos env i);; Ret (m, CNumber n)
  | CSideToMove i => c <- pp_query A E (fun s => Ret (side_to_move s)) m (at_pos env i);; Ret (m, CColor c)
  | CHand i c => h <- pp_query A E (fun s => hand_of_a_player P s c) m (at_pos env i);; Ret (m, CHandOf h)
  | CLastMove i => l <- pp_query A E (fun s => Ret (PartialPosition_last_compact_move s)) m (at_pos env i);; Ret (m, CLast l)
  | CBits i q => b <- pp_query A E (c_bitboard P q) m (at_pos env i);; Ret (m, CSquares b)
  | CToSfen i t => m' <- PartialPosition_to_sfen_c P A E m (at_pos env i) (at_text env t);; Ret (m', CNothing)
  end.
Fixpoint c_run (P : profile) (A : N) (E : endian) (env : c_env) (pads : nat -> N -> N) (k : nat) (os : list c_op) (m : mem)
    : res (mem * list c_result) :=
  match os with
  | [] => Ret (m, [])
  | o :: rest =>
      '(m1, r) <- c_step P A E env (pads k) o m;;
      '(m2, rs) <- c_run P A E env pads (S k) rest m1;;
      Ret (m2, r :: rs)
  end.
