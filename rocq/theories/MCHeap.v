(** Model of [Position] as C programs see it: a pointer to a block on the heap, which C can pass to the library, look into through
    [Position_inner] and [Position_initial_position], and give back. *)
From Verif Require Export MCClient.

(** [Position] (position.rs:98-105) is [repr(Rust)]: the compiler picks where in the block the two [PartialPosition]s are.
    The elements of [moves] are kept beside the memory. *)
Record box_layout := BoxLayout { bx_size : N; bx_initial : N; bx_inner : N }.

(** [w_live]: the blocks now allocated, by the number of the call that made them: address and [moves].
    [w_handle]: the pointer variables of the program; a pointer is known by the block it was made for, so that a pointer to a block that
    has been given back stays dangling even if the address is handed out again. *)
Record world := World {
  w_mem : mem;
  w_live : N -> option (N * list move);
  w_next : N;
  w_handle : nat -> option N
}.
Definition with_mem (w : world) (m : mem) : world := World m (w_live w) (w_next w) (w_handle w).
Definition set_live (w : world) (id : N) (b : option (N * list move)) : world :=
  World (w_mem w) (fun j => if j =? id then b else w_live w j) (w_next w) (w_handle w).
Definition set_handle (w : world) (h : nat) (id : option N) : world :=
  World (w_mem w) (w_live w) (w_next w) (fun j => if Nat.eqb j h then id else w_handle w j).
(** what the allocator does to memory: new bytes hold anything *)
Definition map_block (m : mem) (a n : N) (junk : N -> N) : mem :=
  fun x => if (a <=? x) && (x <? a + n) then Some (junk x mod 256) else m x.
Definition unmap_block (m : mem) (a n : N) : mem := fun x => if (a <=? x) && (x <? a + n) then None else m x.

(** a reference made from a pointer: the block has to be there *)
Definition deref (w : world) (p : option N) : res (N * (N * list move)) :=
  match p with
  | Some id => match w_live w id with Some b => Ret (id, b) | None => UB end
  | None => UB
  end.

(** position.rs:130-132 [Position_startpos]. [Box::new] asks the allocator for a block and never returns if there is none. *)
Definition Position_startpos (P : profile) (A : N) (E : endian) (B : box_layout) (alloc : mem -> option N) (pad : N -> N) (w : world)
    : res (world * N) :=
  p <- pos_startpos P;;
  match alloc (w_mem w) with
  | None => Panic
  | Some a =>
      m <- store_pp A E pad (map_block (w_mem w) a (bx_size B) pad) (a + bx_initial B) (pos_initial p);;
      m <- store_pp A E pad m (a + bx_inner B) (pos_inner p);;
      let id := w_next w in
      Ret (World m (fun j => if j =? id then Some (a, pos_moves p) else w_live w j) (id + 1) (w_handle w), id)
  end.
(** position.rs:139-141 [Position_destruct] *)
Definition Position_destruct (B : box_layout) (w : world) (p : option N) : res world :=
  '(id, (a, _)) <- deref w p;;
  Ret (set_live (with_mem w (unmap_block (w_mem w) a (bx_size B))) id None).
(** position.rs:109-121 [Position_inner], [Position_initial_position]: the pointers C gets *)
Definition Position_inner (B : box_layout) (w : world) (p : option N) : res N := '(_, (a, _)) <- deref w p;; Ret (a + bx_inner B).
Definition Position_initial_position (B : box_layout) (w : world) (p : option N) : res N :=
  '(_, (a, _)) <- deref w p;; Ret (a + bx_initial B).
(** the functions that read [self.inner]: position.rs:163, 169, 194, 215, 235, 242, 248, 264, 304 *)
Definition pos_query {T} (A : N) (E : endian) (B : box_layout) (f : position -> res T) (w : world) (p : option N) : res T :=
  '(_, (a, ms)) <- deref w p;;
  s0 <- load_pp A E (w_mem w) (a + bx_initial B);;
  s <- load_pp A E (w_mem w) (a + bx_inner B);;
  f (Position s0 s ms).
(** position.rs:329-332 [Position_make_compact_move] *)
Definition Position_make_compact_move (P : profile) (A : N) (E : endian) (B : box_layout) (pad : N -> N) (w : world) (p : option N)
    (mv : compact_move) : res (world * bool) :=
  '(id, (a, ms)) <- deref w p;;
  s0 <- load_pp A E (w_mem w) (a + bx_initial B);;
  s <- load_pp A E (w_mem w) (a + bx_inner B);;
  '(p', ok) <- pos_make_compact_move P (Position s0 s ms) mv;;
  m <- store_pp A E pad (w_mem w) (a + bx_inner B) (pos_inner p');;
  Ret (set_live (with_mem w m) id (Some (a, pos_moves p')), ok).
(** position.rs:358-360 [Position_to_sfen_c] *)
Definition Position_to_sfen_c (P : profile) (A : N) (E : endian) (B : box_layout) (w : world) (p : option N) (ptr : N) : res world :=
  log <- pos_query A E B (fun q => pos_to_sfen_c P q ptr) w p;;
  m <- do_writes log (w_mem w);;
  Ret (with_mem w m).

(** ** Programs *)
Inductive h_ask := HPieceAt (sq : square) | HPly | HSideToMove | HHand (c : color) | HLastMove | HOccupied | HVacant | HPlayer (c : color) | HPieces (p : piece).
Inductive h_op :=
| HLocal (o : c_op)
| HNew (h : nat)                        (* h = Position_startpos() *)
| HFree (h : nat)                       (* Position_destruct(h) *)
| HAlias (h g : nat)                    (* h = g *)
| HMove (h : nat) (mv : compact_move)
| HAsk (h : nat) (q : h_ask)
| HText (h : nat) (t : nat)             (* Position_to_sfen_c(h, text t) *)
| HInner (i : nat) (h : nat)            (* position i = *Position_inner(h) *)
| HInitial (i : nat) (h : nat).         (* position i = *Position_initial_position(h) *)
Definition pos_ask (P : profile) (q : h_ask) (p : position) : res c_result :=
  match q with
  | HPieceAt sq => x <- PartialPosition_piece_at P (pos_inner p) sq;; Ret (CPiece x)
  | HPly => Ret (CNumber (pos_ply p))
  | HSideToMove => Ret (CColor (pos_side_to_move p))
  | HHand c => h <- pos_hand_of_a_player P p c;; Ret (CHandOf h)
  | HLastMove => Ret (CLast (PartialPosition_last_compact_move (pos_inner p)))
  | HOccupied => b <- pos_occupied_bitboard p;; Ret (CSquares b)
  | HVacant => b <- pos_vacant_bitboard p;; Ret (CSquares b)
  | HPlayer c => b <- pos_player_bitboard P p c;; Ret (CSquares b)
  | HPieces x => b <- pos_piece_bitboard P p x;; Ret (CSquares b)
  end.
Definition h_step (P : profile) (A : N) (E : endian) (B : box_layout) (env : c_env) (alloc : mem -> option N) (pad : N -> N) (o : h_op) (w : world)
    : res (world * c_result) :=
  match o with
  | HLocal c => '(m, r) <- c_step P A E env pad c (w_mem w);; Ret (with_mem w m, r)
  | HNew h => '(w', id) <- Position_startpos P A E B alloc pad w;; Ret (set_handle w' h (Some id), CNothing)
  | HFree h => w' <- Position_destruct B w (w_handle w h);; Ret (w', CNothing)
  | HAlias h g => match w_handle w g with Some id => Ret (set_handle w h (Some id), CNothing) | None => UB end
  | HMove h mv => '(w', b) <- Position_make_compact_move P A E B pad w (w_handle w h) mv;; Ret (w', CBool b)
  | HAsk h q => r <- pos_query A E B (pos_ask P q) w (w_handle w h);; Ret (w, r)
  | HText h t => w' <- Position_to_sfen_c P A E B w (w_handle w h) (at_text env t);; Ret (w', CNothing)
  | HInner i h => src <- Position_inner B w (w_handle w h);; m <- c_assign A (w_mem w) (at_pos env i) src;; Ret (with_mem w m, CNothing)
  | HInitial i h => src <- Position_initial_position B w (w_handle w h);; m <- c_assign A (w_mem w) (at_pos env i) src;; Ret (with_mem w m, CNothing)
  end.
(** the allocator and the padding may behave differently at every step *)
Fixpoint h_run (P : profile) (A : N) (E : endian) (B : box_layout) (env : c_env) (allocs : nat -> mem -> option N) (pads : nat -> N -> N) (k : nat)
    (os : list h_op) (w : world) : res (world * list c_result) :=
  match os with
  | [] => Ret (w, [])
  | o :: rest =>
      '(w1, r) <- h_step P A E B env (allocs k) (pads k) o w;;
      '(w2, rs) <- h_run P A E B env allocs pads (S k) rest w1;;
      Ret (w2, r :: rs)
  end.
Definition world_start (m : mem) : world := World m (fun _ => None) 0 (fun _ => None).

(** ** c_tests/position.c *)
(** [strcmp] of the C library on arrays of at most [n] bytes *)
Fixpoint strcmp (n : nat) (m : mem) (p q : N) : res Z :=
  match n with
  | O => UB
  | S n =>
      x <- mem_read m p;; y <- mem_read m q;;
      if x =? y then (if x =? 0 then Ret 0%Z else strcmp n m (p + 1) (q + 1)) else Ret (Z.of_N x - Z.of_N y)%Z
  end.
Definition c_assert (b : bool) : res unit := if b then Ret tt else Panic.
(** c_tests/position.c:6-20 [main]: [pos] and [buf] (200 bytes) are its variables, [lit1] and [lit2] the two string literals *)
Definition c_main (P : profile) (A : N) (E : endian) (B : box_layout) (alloc : mem -> option N) (pads : nat -> N -> N) (pos buf lit1 lit2 : N) (w : world)
    : res (world * N) :=
  m <- PartialPosition_startpos P A E (pads 0%nat) (w_mem w) pos;;
  m <- PartialPosition_to_sfen_c P A E m pos buf;;
  r <- strcmp (N.to_nat 200) m buf lit1;;
  c_assert (Z.eqb r 0);;;
  '(m, _) <- memset m buf 0 200;;
  '(w, p) <- Position_startpos P A E B alloc (pads 1%nat) (with_mem w m);;
  let w := set_handle w 0 (Some p) in
  w <- Position_to_sfen_c P A E B w (w_handle w 0%nat) buf;;
  w <- Position_destruct B w (w_handle w 0%nat);;
  r <- strcmp (N.to_nat 200) (w_mem w) buf lit2;;
  c_assert (Z.eqb r 0);;;
  Ret (w, 0).
