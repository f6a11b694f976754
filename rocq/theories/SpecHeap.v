(** Specification of C programs that keep [Position]s on the heap. *)
From Verif Require Export SpecClient MCHeap.

(** ** The same program over abstract positions *)
(** an object: the initial position, the current one, the moves *)
Record hclient := HClient {
  hc_local : client;
  hc_handle : nat -> option N;
  hc_object : N -> option (apos * apos * list move);
  hc_next : N
}.
Definition hclient_start : hclient := HClient client_start (fun _ => None) (fun _ => None) 0.
Definition put_local (st : hclient) (l : client) : hclient := HClient l (hc_handle st) (hc_object st) (hc_next st).
Definition put_handle (st : hclient) (h : nat) (id : N) : hclient :=
  HClient (hc_local st) (fun j => if Nat.eqb j h then Some id else hc_handle st j) (hc_object st) (hc_next st).
Definition put_object (st : hclient) (id : N) (x : option (apos * apos * list move)) : hclient :=
  HClient (hc_local st) (hc_handle st) (fun j => if j =? id then x else hc_object st j) (hc_next st).
(** the object a pointer variable refers to *)
Definition object_of (st : hclient) (h : nat) : option (N * (apos * apos * list move)) :=
  match hc_handle st h with
  | Some id => match hc_object st id with Some x => Some (id, x) | None => None end
  | None => None
  end.
Definition a_answer (q : h_ask) (x : apos) : c_result :=
  match q with
  | HPieceAt sq => CPiece (OptionPiece (piece_byte (a_board x sq)))
  | HPly => CNumber (a_ply x)
  | HSideToMove => CColor (a_side x)
  | HHand c => CHandOf (Hand (map (a_hand x c) hand_kinds ++ [0]))
  | HLastMove => CLast (OptionCompactMove (move_number (a_last x)))
  | HOccupied => CSquares (board_words (fun sq => of_color x Black sq || of_color x White sq))
  | HVacant => CSquares (board_words (fun sq => negb (of_color x Black sq || of_color x White sq)))
  | HPlayer c => CSquares (board_words (of_color x c))
  | HPieces p => CSquares (board_words (fun sq => of_color x (color_of p) sq && of_kind x (kind_of p) sq))
  end.
(** [Misused]: a pointer is used that was never set or whose object has been destructed;
    [Unset]: a local position is read before it is set *)
Inductive outcome (T : Type) := Fine (x : T) | Misused | Unset.
Arguments Fine {T} _. Arguments Misused {T}. Arguments Unset {T}.
Definition on_object {T} (st : hclient) (h : nat) (f : N -> apos -> apos -> list move -> T) : outcome T :=
  match object_of st h with Some (id, (x0, x, ms)) => Fine (f id x0 x ms) | None => Misused end.
Definition hclient_step (st : hclient) (o : h_op) : outcome (hclient * c_result) :=
  match o with
  | HLocal c => match client_step (hc_local st) c with Some (l, r) => Fine (put_local st l, r) | None => Unset end
  | HNew h => Fine (put_handle (HClient (hc_local st) (hc_handle st)
                                  (fun j => if j =? hc_next st then Some (a_opening, a_opening, []) else hc_object st j) (hc_next st + 1)) h (hc_next st), CNothing)
  | HFree h => on_object st h (fun id _ _ _ => (put_object st id None, CNothing))
  | HAlias h g => match hc_handle st g with Some id => Fine (put_handle st h id, CNothing) | None => Misused end
  | HMove h mv => on_object st h (fun id x0 x ms =>
                    let (x', b) := a_try x (unpack mv) in (put_object st id (Some (x0, x', if b then ms ++ [unpack mv] else ms)), CBool b))
  | HAsk h q => on_object st h (fun _ _ x _ => (st, a_answer q x))
  | HText h t => on_object st h (fun _ _ x _ => (put_local st (set_text (hc_local st) t (sfen_text x)), CNothing))
  | HInner i h => on_object st h (fun _ _ x _ => (put_local st (set_pos (hc_local st) i x), CNothing))
  | HInitial i h => on_object st h (fun _ x0 _ _ => (put_local st (set_pos (hc_local st) i x0), CNothing))
  end.
Fixpoint hclient_run (st : hclient) (os : list h_op) : outcome (hclient * list c_result) :=
  match os with
  | [] => Fine (st, [])
  | o :: rest =>
      match hclient_step st o with
      | Fine (st1, r) => match hclient_run st1 rest with Fine (st2, rs) => Fine (st2, r :: rs) | Misused => Misused | Unset => Unset end
      | Misused => Misused
      | Unset => Unset
      end
  end.
Definition hop_fine (n k : nat) (o : h_op) : Prop :=
  match o with
  | HLocal c => op_fine n k c
  | HNew _ | HFree _ | HAlias _ _ => True
  | HMove _ mv => valid_compact mv
  | HAsk _ q => match q with HPieceAt sq => valid_square sq | HPieces p => valid_piece p | _ => True end
  | HText _ t => (t < k)%nat
  | HInner i _ | HInitial i _ => (i < n)%nat
  end.

(** ** Memory *)
(** both [PartialPosition]s are aligned, inside the block and do not overlap *)
Definition box_ok (A : N) (B : box_layout) : Prop :=
  aligned A (bx_initial B) /\ aligned A (bx_inner B) /\
  bx_initial B + position_size A <= bx_size B /\ bx_inner B + position_size A <= bx_size B /\
  (bx_initial B + position_size A <= bx_inner B \/ bx_inner B + position_size A <= bx_initial B).
(** the contract of the allocator: what it hands out is aligned and not in use *)
Definition fresh_blocks (A : N) (B : box_layout) (alloc : mem -> option N) : Prop :=
  forall m a, alloc m = Some a -> aligned A a /\ forall x, in_region a (bx_size B) x -> m x = None.
Definition object_at (A : N) (E : endian) (B : box_layout) (m : mem) (a : N) (x0 x : apos) : Prop :=
  shows A E m (a + bx_initial B) x0 /\ shows A E m (a + bx_inner B) x.
(** the bytes of the block of a live object *)
Definition in_object (B : box_layout) (w : world) (x : N) : Prop :=
  exists id a ms, w_live w id = Some (a, ms) /\ in_region a (bx_size B) x.
(** the run comes to a [Position_startpos] for which the allocator has no block; [c]: calls made before the run *)
Definition h_out_of_memory (P : profile) (A : N) (E : endian) (B : box_layout) (env : c_env) (allocs : nat -> mem -> option N) (pads : nat -> N -> N)
    (c : nat) (os : list h_op) (w : world) : Prop :=
  exists before h after w' rs, os = before ++ HNew h :: after /\ h_run P A E B env allocs pads c before w = Ret (w', rs) /\
    allocs (c + length before)%nat (w_mem w') = None.
