(** Model of the heap of the no-std library (/repo/shogi_core_c/src/no_std.rs:58-114): the bundled allocator serving [Box] and [Vec]. *)
From Verif Require Export MCHeap.

(** ** Allocation and deallocation by any number of threads *)
(** no_std.rs:112: [dealloc] may happen at any time, for any block *)
Inductive heap_choice := Do (c : alloc_choice) | Dealloc (t : nat) (o : N) (l : layout).
Definition heap_step (P : profile) (U : N) (s : alloc_state) (c : heap_choice) : res alloc_state :=
  match c with
  | Do c => alloc_step P U s c
  | Dealloc _ _ _ => Ret (alloc_dealloc s)
  end.
Fixpoint heap_run (P : profile) (U : N) (s : alloc_state) (cs : list heap_choice) : res alloc_state :=
  match cs with
  | [] => Ret s
  | c :: rest => s' <- heap_step P U s c;; heap_run P U s' rest
  end.

(** ** One thread *)
(** no_std.rs:82-111 [alloc] with nobody else at work: the new value of [remaining] and the offset ([None] for null). A spurious
    failure of [compare_exchange_weak] repeats the same round. *)
Definition alloc_alone (P : profile) (U : N) (rem : N) (l : layout) : res (N * option N) :=
  mask <- align_mask P U l;;
  if MAX_SUPPORTED_ALIGN <? l_align l then Ret (rem, None)
  else
    '(next, asg) <- alloc_closure P U l mask rem;;
    match next with
    | None => Ret (rem, None)
    | Some next => Ret (next, asg)
    end.

(** How the compiler and the linker lay out the library: the address of [ARENA_BSS] (no_std.rs:73), [Position] and its alignment, the size
    of [Move] and its bytes ([Move] is [repr(Rust)] and all its fields are bytes, so it has alignment 1), and the capacity [Vec] asks for
    when [c] elements fill it. *)
Record n_build := NBuild {
  nb_base : N;
  nb_box : box_layout;
  nb_align : N;
  nb_elem : N;
  nb_code : move -> list N;
  nb_grow : N -> N
}.
(** the growth of [alloc::vec::Vec] for elements of 2 to 1024 bytes: twice the capacity, at least 4 *)
Definition vec_grow (c : N) : N := N.max 4 (N.max (2 * c) (c + 1)).

(** [nw_vec]: pointer and capacity of the [moves] of each live object *)
Record n_world := NWorld { nw_world : world; nw_rem : N; nw_vec : N -> N * N }.
Definition n_start (m : mem) : n_world := NWorld (world_start m) ARENA_SIZE (fun _ => (0, 0)).
Definition set_vec (v : N -> N * N) (id : N) (x : N * N) : N -> N * N := fun j => if j =? id then x else v j.

(** [GlobalAlloc::realloc] is not overridden (no_std.rs:81-113): core's default allocates, copies and deallocates. For a vector without
    memory it is just [alloc]. When there is no memory [error_handler] (no_std.rs:52-56) never returns; a size beyond [isize::MAX] is a
    capacity overflow, which panics. *)
Definition vec_grown (P : profile) (U : N) (b : n_build) (junk : N -> N) (m : mem) (rem ptr cap : N) : res (mem * N * (N * N)) :=
  let cap' := nb_grow b cap in
  let size := nb_elem b * cap' in
  if 2 ^ (U - 1) <=? size then Panic
  else
    '(rem', o) <- alloc_alone P U rem (Layout size 1);;
    match o with
    | None => Panic
    | Some o =>
        let ptr' := alloc_pointer (nb_base b) o in
        '(m, _) <- memcpy (map_block m ptr' size junk) ptr' ptr (nb_elem b * cap);;
        Ret (unmap_block m ptr (nb_elem b * cap), rem', (ptr', cap'))
    end.
(** [Vec::push] of the element number [len] *)
Definition vec_push (P : profile) (U : N) (b : n_build) (junk : N -> N) (m : mem) (rem : N) (v : N * N) (len : N) (mv : move)
    : res (mem * N * (N * N)) :=
  '(m, rem, v) <- (if len =? snd v then vec_grown P U b junk m rem (fst v) (snd v) else Ret (m, rem, v));;
  m <- write_bytes m (fst v + nb_elem b * len) (nb_code b mv);;
  Ret (m, rem, v).

(** One call. [Position_startpos] (position.rs:130-132) and [Position_make_compact_move] (position.rs:315-332) may allocate;
    [Position_destruct] (position.rs:139-141) drops the vector, then the box. *)
Definition n_step (P : profile) (U A : N) (E : endian) (b : n_build) (env : c_env) (pad : N -> N) (o : h_op) (nw : n_world)
    : res (n_world * c_result) :=
  let w := nw_world nw in
  let B := nb_box b in
  match o with
  | HNew h =>
      '(rem', a) <- alloc_alone P U (nw_rem nw) (Layout (bx_size B) (nb_align b));;
      '(w', r) <- h_step P A E B env (fun _ => match a with Some a => Some (alloc_pointer (nb_base b) a) | None => None end) pad o w;;
      Ret (NWorld w' rem' (set_vec (nw_vec nw) (w_next w) (0, 0)), r)
  | HFree h =>
      '(id, _) <- deref w (w_handle w h);;
      let v := nw_vec nw id in
      let w := with_mem w (unmap_block (w_mem w) (fst v) (nb_elem b * snd v)) in
      '(w', r) <- h_step P A E B env (fun _ => None) pad o w;;
      Ret (NWorld w' (nw_rem nw) (nw_vec nw), r)
  | HMove h mv =>
      '(id, (_, ms)) <- deref w (w_handle w h);;
      '(w', r) <- h_step P A E B env (fun _ => None) pad o w;;
      match r with
      | CBool true =>
          x <- move_of_cm P mv;;
          '(m, rem', v) <- vec_push P U b pad (w_mem w') (nw_rem nw) (nw_vec nw id) (N.of_nat (length ms)) x;;
          Ret (NWorld (with_mem w' m) rem' (set_vec (nw_vec nw) id v), r)
      | _ => Ret (NWorld w' (nw_rem nw) (nw_vec nw), r)
      end
  | _ => '(w', r) <- h_step P A E B env (fun _ => None) pad o w;; Ret (NWorld w' (nw_rem nw) (nw_vec nw), r)
  end.
Fixpoint n_run (P : profile) (U A : N) (E : endian) (b : n_build) (env : c_env) (pads : nat -> N -> N) (k : nat) (os : list h_op) (nw : n_world)
    : res (n_world * list c_result) :=
  match os with
  | [] => Ret (nw, [])
  | o :: rest =>
      '(nw1, r) <- n_step P U A E b env (pads k) o nw;;
      '(nw2, rs) <- n_run P U A E b env pads (S k) rest nw1;;
      Ret (nw2, r :: rs)
  end.
