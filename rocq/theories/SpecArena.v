(** Specification of the heap of the no-std library. *)
From Verif Require Export SpecRuntime SpecHeap MCArena.

(** ** The allocator *)
Definition valid_heap_choice (U : N) (c : heap_choice) : Prop :=
  match c with Do c => valid_choice U c | Dealloc _ _ _ => True end.
(** the bytes of the blocks ever handed out *)
Definition served (es : list alloc_event) : N :=
  fold_right (fun e n => match ev_offset e with Some _ => l_size (ev_layout e) + n | None => n end) 0 es.
(** how many of the calls got a block of at least [n] bytes *)
Definition blocks_of (n : N) (es : list alloc_event) : nat :=
  length (filter (fun e => match ev_offset e with Some _ => n <=? l_size (ev_layout e) | None => false end) es).
(** the rounds thread [t] does in which [compare_exchange_weak] does not fail for no reason *)
Definition rounds (t : nat) (cs : list heap_choice) : nat :=
  length (filter (fun c => match c with Do (Attempt u false) => Nat.eqb u t | _ => false end) cs).

(** ** What a program asks the allocator for *)
(** the capacity of a vector after [n] pushes: it grows when it is full *)
Fixpoint capacity (grow : N -> N) (n : nat) : N :=
  match n with
  | O => 0
  | S n => let c := capacity grow n in if c =? N.of_nat n then grow (N.of_nat n) else c
  end.
Definition push_request (b : n_build) (n : nat) : list layout :=
  if capacity (nb_grow b) n =? N.of_nat n then [Layout (nb_elem b * nb_grow b (N.of_nat n)) 1] else [].
Definition op_requests (b : n_build) (st : hclient) (o : h_op) : list layout :=
  match o with
  | HNew _ => [Layout (bx_size (nb_box b)) (nb_align b)]
  | HMove h mv =>
      match object_of st h with
      | Some (_, (_, x, ms)) => if snd (a_try x (unpack mv)) then push_request b (length ms) else []
      | None => []
      end
  | _ => []
  end.
Fixpoint requests (b : n_build) (st : hclient) (os : list h_op) : list layout :=
  match os with
  | [] => []
  | o :: rest => op_requests b st o ++ match hclient_step st o with Fine (st', _) => requests b st' rest | _ => [] end
  end.
Definition all_served (ls : list layout) : Prop := ~ In None (snd (serial_run (128 * 1024) ls)).

(** ** Layouts and memory *)
(** what the compiler guarantees: [Position] is aligned for its fields and a multiple of its alignment, a [Move] is [nb_elem] bytes,
    a vector that grows gets larger *)
Definition build_ok (U A : N) (b : n_build) : Prop :=
  box_ok A (nb_box b) /\ (exists j, j < U /\ nb_align b = 2 ^ j) /\ (position_align A | nb_align b) /\ bx_size (nb_box b) < 2 ^ U /\
  (forall mv, N.of_nat (length (nb_code b mv)) = nb_elem b) /\ 0 < nb_elem b /\ (forall c, c < nb_grow b c).
(** the arena belongs to the allocator alone *)
Definition arena_free (b : n_build) (m : mem) : Prop := forall y, in_region (nb_base b) (128 * 1024) y -> m y = None.
(** the list of moves in memory *)
Definition moves_at (b : n_build) (m : mem) (ptr : N) (ms : list move) : Prop :=
  forall i mv j v, nth_error ms i = Some mv -> nth_error (nb_code b mv) j = Some v ->
  m (ptr + nb_elem b * N.of_nat i + N.of_nat j) = Some v.
(** the bytes of the vector of a live object *)
Definition in_vector (b : n_build) (nw : n_world) (y : N) : Prop :=
  exists id, w_live (nw_world nw) id <> None /\ in_region (fst (nw_vec nw id)) (nb_elem b * snd (nw_vec nw id)) y.

(** ** Counting *)
Definition news (os : list h_op) : nat := length (filter (fun o => match o with HNew _ => true | _ => false end) os).
