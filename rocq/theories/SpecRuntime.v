(** Specification of the no-std runtime: memory routines by their C contracts, the allocator by the blocks it hands out. *)
From Verif Require Export Machine MCRuntime SpecBase.

(** ** Memory *)
(** all of [a, a + n) may be accessed *)
Definition accessible (m : mem) (a n : N) : Prop := forall i, i < n -> exists v, m (a + i) = Some v.
Definition holds_bytes (m : mem) : Prop := forall a v, m a = Some v -> v < 256.
Definition in_region (a n x : N) : Prop := a <= x < a + n.
(** no address belongs to both regions *)
Definition apart (a b n : N) : Prop := forall x, in_region a n x -> in_region b n x -> False.
(** the region [a, a + n) now holds what [f] says (by offset), and no other address changed *)
Definition filled (m m' : mem) (a n : N) (f : N -> option N) : Prop :=
  (forall i, i < n -> m' (a + i) = f i) /\ (forall x, ~ in_region a n x -> m' x = m x).
(** [i] is the offset of the first difference *)
Definition first_difference (m : mem) (a b i : N) : Prop :=
  m (a + i) <> m (b + i) /\ forall j, j < i -> m (a + j) = m (b + j).

(** ** The allocator *)
(** a [Layout] as the Rust type guarantees it on a target with [U]-bit usize *)
Definition valid_layout (U : N) (l : layout) : Prop :=
  (exists k, k < U /\ l_align l = 2 ^ k) /\ l_size l < 2 ^ U.
Definition valid_choice (U : N) (c : alloc_choice) : Prop :=
  match c with Call _ l => valid_layout U l | Attempt _ _ => True end.

(** One call, running alone, with [rem] bytes left below the last block: new [rem], and the block's offset *)
Definition serial_alloc (rem : N) (l : layout) : N * option N :=
  if (4096 <? l_align l) || (rem <? l_size l) then (rem, None)
  else let o := (rem - l_size l) / l_align l * l_align l in (o, Some o).
Fixpoint serial_run (rem : N) (ls : list layout) : N * list (option N) :=
  match ls with
  | [] => (rem, [])
  | l :: rest =>
      let (rem1, o) := serial_alloc rem l in let (rem2, os) := serial_run rem1 rest in (rem2, o :: os)
  end.

(** the finished calls, oldest first *)
Definition finished (s : alloc_state) : list alloc_event := rev (as_events s).
(** offset [x] of the arena belongs to the block handed out by this call *)
Definition in_block (e : alloc_event) (x : N) : Prop :=
  exists o, ev_offset e = Some o /\ o <= x < o + l_size (ev_layout e).
(** what is left below the lowest block after these calls *)
Definition bytes_left (es : list alloc_event) : N :=
  fold_left (fun r e => match ev_offset e with Some o => o | None => r end) es (128 * 1024).

(** the calls made: a [Call] of a thread that is not inside [alloc] already *)
Fixpoint calls (P : profile) (U : N) (s : alloc_state) (cs : list alloc_choice) : list (nat * layout) :=
  match cs with
  | [] => []
  | c :: rest =>
      let now := match c with
                 | Call t l => match as_threads s t with Idle => [(t, l)] | Trying _ _ _ _ => [] end
                 | Attempt _ _ => []
                 end in
      match alloc_step P U s c with Ret s' => now ++ calls P U s' rest | _ => now end
  end.
Definition calls_of (t : nat) (xs : list (nat * layout)) : list layout :=
  map snd (filter (fun x => Nat.eqb (fst x) t) xs).
Definition answered (t : nat) (es : list alloc_event) : list layout :=
  map ev_layout (filter (fun e => Nat.eqb (ev_thread e) t) es).
Definition pending (s : alloc_state) (t : nat) : list layout :=
  match as_threads s t with Idle => [] | Trying l _ _ _ => [l] end.

(** The type of [ARENA_BSS], an array of bytes, has alignment 1: the linker may put it at any address but 0. *)
Definition allowed_base (base : N) : Prop := 0 < base.
