(** Model of /repo/shogi_core_c/src/no_std.rs: memory routines and the bump allocator. *)
From Verif Require Export Machine.

(** ** Memory: the byte at each accessible address; accessing any other address is undefined
    behaviour. Addresses are unbounded integers (address-space wrap-around is not modelled). *)
Definition mem : Type := N -> option N.
(** [core::ptr::read::<u8>] *)
Definition mem_read (m : mem) (a : N) : res N := match m a with Some v => Ret v | None => UB end.
(** [core::ptr::write::<u8>] *)
Definition mem_write (m : mem) (a v : N) : res mem :=
  match m a with
  | Some _ => Ret (fun b => if b =? a then Some v else m b)
  | None => UB
  end.

(** [c as u8] for [c : i32] *)
Definition i32_as_u8 (c : Z) : N := Z.to_N (c mod 256).
(** [a - b] on i32 *)
Definition i32_sub (P : profile) (a b : Z) : res Z :=
  let d := (a - b)%Z in
  if ((- 2147483648 <=? d) && (d <=? 2147483647))%Z then Ret d
  else if overflow_checks P then Panic else Ret ((d + 2147483648) mod 4294967296 - 2147483648)%Z.

(** no_std.rs:4-10 [memcpy] *)
Definition memcpy (m : mem) (dest src n : N) : res (mem * N) :=
  m' <- for_each (range 0 n) (fun i m =>
          value <- mem_read m (src + i);; mem_write m (dest + i) value) m;;
  Ret (m', dest).

(** no_std.rs:13-18 [memset] *)
Definition memset (m : mem) (b : N) (c : Z) (n : N) : res (mem * N) :=
  m' <- for_each (range 0 n) (fun i m => mem_write m (b + i) (i32_as_u8 c)) m;;
  Ret (m', b).

(** no_std.rs:21-30 [memcmp] *)
Fixpoint memcmp_loop (P : profile) (m : mem) (s1 s2 : N) (is : list N) : res Z :=
  match is with
  | [] => Ret 0%Z
  | i :: rest =>
      value1 <- mem_read m (s1 + i);;
      value2 <- mem_read m (s2 + i);;
      if negb (value1 =? value2) then i32_sub P (Z.of_N value1) (Z.of_N value2)
      else memcmp_loop P m s1 s2 rest
  end.
Definition memcmp (P : profile) (m : mem) (s1 s2 n : N) : res Z := memcmp_loop P m s1 s2 (range 0 n).

(** no_std.rs:35-41 [__bzero] *)
Definition bzero (m : mem) (s n : N) : res mem :=
  for_each (range 0 n) (fun i m => mem_write m (s + i) 0) m.

(** ** The allocator (no_std.rs:58-114) *)

(** no_std.rs:66-67 *)
Definition ARENA_SIZE : N := 128 * 1024.
Definition MAX_SUPPORTED_ALIGN : N := 4096.

(** In the allocator [U] is the number of bits of [usize] on the target. *)

(** [core::alloc::Layout] *)
Record layout := Layout { l_size : N; l_align : N }.

(** no_std.rs:88 [!(align - 1)] on usize *)
Definition align_mask (P : profile) (U : N) (l : layout) : res N :=
  a <- sub_w P U (l_align l) 1;; Ret (not_w U a).

(** no_std.rs:97-105: the closure; the value returned, and the value of [allocated] if it was
    assigned *)
Definition alloc_closure (P : profile) (U : N) (l : layout) (mask remaining : N) : res (option N * option N) :=
  if remaining <? l_size l then Ret (None, None)
  else
    r <- sub_w P U remaining (l_size l);;
    let r := N.land r mask in
    Ret (Some r, Some r).

(** Threads running [alloc] concurrently. [AtomicUsize::fetch_update] is
    [prev = load(); while let Some(next) = f(prev) { match compare_exchange_weak(prev, next) { Ok(x) => return Ok(x), Err(p) => prev = p } } Err(prev)].
    All accesses are SeqCst on one location: the interleaving of these atomic steps is the full
    set of behaviours. *)
Inductive thread_state :=
| Idle
| Trying (l : layout) (mask prev allocated : N).   (* inside fetch_update, about to call the closure *)

(** One finished call of [alloc]: the layout and the offset into the arena ([None] for null) *)
Record alloc_event := AllocEvent { ev_thread : nat; ev_layout : layout; ev_offset : option N }.

Record alloc_state := AllocState {
  as_remaining : N;                      (* no_std.rs:69 *)
  as_threads : nat -> thread_state;
  as_events : list alloc_event           (* latest first *)
}.

(** no_std.rs:75-77 *)
Definition alloc_init : alloc_state := AllocState ARENA_SIZE (fun _ => Idle) [].

Definition set_thread (f : nat -> thread_state) (t : nat) (s : thread_state) : nat -> thread_state :=
  fun u => if Nat.eqb u t then s else f u.

(** What the scheduler and the hardware decide at each step. *)
Inductive alloc_choice :=
| Call (t : nat) (l : layout)     (* thread [t] calls [alloc(l)] and runs up to the load *)
| Attempt (t : nat) (spurious : bool). (* thread [t] runs the closure and compare_exchange_weak *)

(** no_std.rs:82-111 [alloc], one atomic step. A choice that does not apply leaves the state as it is. *)
Definition alloc_step (P : profile) (U : N) (s : alloc_state) (c : alloc_choice) : res alloc_state :=
  match c with
  | Call t l =>
      match as_threads s t with
      | Idle =>
          mask <- align_mask P U l;;
          if MAX_SUPPORTED_ALIGN <? l_align l then
            Ret (AllocState (as_remaining s) (as_threads s) (AllocEvent t l None :: as_events s))
          else
            Ret (AllocState (as_remaining s) (set_thread (as_threads s) t (Trying l mask (as_remaining s) 0))
                            (as_events s))
      | Trying _ _ _ _ => Ret s
      end
  | Attempt t spurious =>
      match as_threads s t with
      | Idle => Ret s
      | Trying l mask prev allocated =>
          '(next, asg) <- alloc_closure P U l mask prev;;
          let allocated := match asg with Some a => a | None => allocated end in
          match next with
          | None =>
              Ret (AllocState (as_remaining s) (set_thread (as_threads s) t Idle)
                              (AllocEvent t l None :: as_events s))
          | Some next =>
              if (as_remaining s =? prev) && negb spurious then
                Ret (AllocState next (set_thread (as_threads s) t Idle)
                                (AllocEvent t l (Some allocated) :: as_events s))
              else
                Ret (AllocState (as_remaining s)
                                (set_thread (as_threads s) t (Trying l mask (as_remaining s) allocated))
                                (as_events s))
          end
      end
  end.

(** A run: any finite sequence of choices. *)
Fixpoint alloc_run (P : profile) (U : N) (s : alloc_state) (cs : list alloc_choice) : res alloc_state :=
  match cs with
  | [] => Ret s
  | c :: rest => s' <- alloc_step P U s c;; alloc_run P U s' rest
  end.

(** no_std.rs:72,110: the address returned for offset [o] when the linker placed [ARENA_BSS] at [base] *)
Definition alloc_pointer (base o : N) : N := base + o.
(** no_std.rs:112 [dealloc]: does nothing *)
Definition alloc_dealloc (s : alloc_state) : alloc_state := s.
