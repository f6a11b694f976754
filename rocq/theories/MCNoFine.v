(** Model of threads linked with the no-std library, step by step inside the calls: where [MCNoThreads] lets a call happen at once, here a
    call that asks the bundled allocator for memory (/repo/shogi_core_c/src/no_std.rs:82-111) is interrupted before each
    [compare_exchange_weak] and after the last one, and the other threads run in between. *)
From Verif Require Export MCNoThreads.

(** What a thread still has to do when it has its memory: [Box::new] the position (/repo/shogi_core/src/position.rs:130-132), or go on in
    [Vec::push] (position.rs:315-319), where the move is made in [inner] already; [w] is the world with the longer list. *)
Inductive f_pending := FNew (h : nat) | FPush (w : world) (id len : N) (x : move).
(** [FAsking]: inside [fetch_update] with the value [prev] of [remaining]; [FServed]: [alloc] came back with this offset; [FHung]: in one of
    the endless loops of no_std.rs:45-56. *)
Inductive f_phase :=
| FReady
| FAsking (p : f_pending) (l : layout) (mask prev allocated : N)
| FServed (p : f_pending) (l : layout) (o : N)
| FHung.
Record f_thread := FThread { ft_todo : list h_op; ft_world : n_world; ft_tick : nat; ft_results : list c_result; ft_phase : f_phase }.
Record f_system := FSystem { fs_mem : mem; fs_rem : N; fs_thread : nat -> f_thread }.
Definition f_start (m : mem) (programs : nat -> list h_op) : f_system :=
  FSystem m ARENA_SIZE (fun i => FThread (programs i) (n_start m) 0 [] FReady).

(** After a step the call has come back, or memory, [remaining] and the phase have changed. *)
Inductive f_outcome := Answered (nw : n_world) (r : c_result) | Turned (m : mem) (rem : N) (ph : f_phase).
(** no_std.rs:83-95: up to and with the load of [fetch_update] *)
Definition f_ask (P : profile) (U : N) (m : mem) (rem : N) (p : f_pending) (l : layout) : res f_outcome :=
  mask <- align_mask P U l;;
  Ret (Turned m rem (if MAX_SUPPORTED_ALIGN <? l_align l then FHung else FAsking p l mask rem 0)).
(** from the beginning of a call to its end or to the first load of [remaining] *)
Definition f_begin (P : profile) (U A : N) (E : endian) (b : n_build) (env : c_env) (pad : N -> N) (o : h_op) (nw : n_world) : res f_outcome :=
  let w := nw_world nw in
  match o with
  | HNew h => f_ask P U (w_mem w) (nw_rem nw) (FNew h) (Layout (bx_size (nb_box b)) (nb_align b))
  | HMove h mv =>
      '(id, (_, ms)) <- deref w (w_handle w h);;
      '(w', r) <- h_step P A E (nb_box b) env (fun _ => None) pad o w;;
      match r with
      | CBool true =>
          x <- move_of_cm P mv;;
          let len := N.of_nat (length ms) in
          let v := nw_vec nw id in
          if len =? snd v then
            let size := nb_elem b * nb_grow b (snd v) in
            if 2 ^ (U - 1) <=? size then Ret (Turned (w_mem w') (nw_rem nw) FHung)
            else f_ask P U (w_mem w') (nw_rem nw) (FPush w' id len x) (Layout size 1)
          else
            m <- write_bytes (w_mem w') (fst v + nb_elem b * len) (nb_code b x);;
            Ret (Answered (NWorld (with_mem w' m) (nw_rem nw) (set_vec (nw_vec nw) id v)) r)
      | _ => Ret (Answered (NWorld w' (nw_rem nw) (nw_vec nw)) r)
      end
  | _ => '(nw', r) <- n_step P U A E b env pad o nw;; Ret (Answered nw' r)
  end.
(** one round of [fetch_update] (no_std.rs:94-109); without memory [error_handler] never returns *)
Definition f_round (P : profile) (U : N) (spurious : bool) (p : f_pending) (l : layout) (mask prev allocated : N) (m : mem) (rem : N) : res f_outcome :=
  '(next, asg) <- alloc_closure P U l mask prev;;
  let allocated := match asg with Some a => a | None => allocated end in
  match next with
  | None => Ret (Turned m rem FHung)
  | Some next =>
      if (rem =? prev) && negb spurious then Ret (Turned m next (FServed p l allocated))
      else Ret (Turned m rem (FAsking p l mask rem allocated))
  end.
(** from [alloc] to the end of the call *)
Definition f_finish (P : profile) (A : N) (E : endian) (b : n_build) (env : c_env) (pad : N -> N) (p : f_pending) (l : layout) (o : N) (nw : n_world)
    : res f_outcome :=
  let w := nw_world nw in
  let ptr := alloc_pointer (nb_base b) o in
  match p with
  | FNew h =>
      '(w', r) <- h_step P A E (nb_box b) env (fun _ => Some ptr) pad (HNew h) w;;
      Ret (Answered (NWorld w' (nw_rem nw) (set_vec (nw_vec nw) (w_next w) (0, 0))) r)
  | FPush w' id len x =>
      let v := nw_vec nw id in
      '(m, _) <- memcpy (map_block (w_mem w) ptr (l_size l) pad) ptr (fst v) (nb_elem b * snd v);;
      let m := unmap_block m (fst v) (nb_elem b * snd v) in
      m <- write_bytes m (ptr + nb_elem b * len) (nb_code b x);;
      Ret (Answered (NWorld (with_mem w' m) (nw_rem nw) (set_vec (nw_vec nw) id (ptr, nb_grow b (snd v)))) (CBool true))
  end.
Definition f_act (P : profile) (U A : N) (E : endian) (b : n_build) (env : c_env) (pad : N -> N) (spurious : bool) (ph : f_phase) (o : h_op) (nw : n_world)
    : res f_outcome :=
  match ph with
  | FReady => f_begin P U A E b env pad o nw
  | FAsking p l mask prev allocated => f_round P U spurious p l mask prev allocated (w_mem (nw_world nw)) (nw_rem nw)
  | FServed p l off => f_finish P A E b env pad p l off nw
  | FHung => Ret (Turned (w_mem (nw_world nw)) (nw_rem nw) FHung)
  end.

(** One step of thread [i]; [spurious]: [compare_exchange_weak] fails for no reason, if it comes to that. *)
Definition f_put (ts : nat -> f_thread) (i : nat) (t : f_thread) : nat -> f_thread := fun j => if Nat.eqb j i then t else ts j.
Definition f_step (P : profile) (U A : N) (E : endian) (b : n_build) (envs : nat -> c_env) (pads : nat -> nat -> N -> N) (i : nat) (spurious : bool) (sys : f_system)
    : res f_system :=
  let t := fs_thread sys i in
  match ft_todo t with
  | [] => Ret sys
  | o :: rest =>
      match f_act P U A E b (envs i) (pads i (ft_tick t)) spurious (ft_phase t) o (n_shared (fs_mem sys) (fs_rem sys) (ft_world t)) with
      | Ret (Answered nw r) =>
          Ret (FSystem (w_mem (nw_world nw)) (nw_rem nw)
                 (f_put (fs_thread sys) i (FThread rest nw (S (ft_tick t)) (ft_results t ++ [r]) FReady)))
      | Ret (Turned m rem ph) =>
          Ret (FSystem m rem (f_put (fs_thread sys) i (FThread (o :: rest) (ft_world t) (ft_tick t) (ft_results t) ph)))
      | Panic =>
          Ret (FSystem (fs_mem sys) (fs_rem sys) (f_put (fs_thread sys) i (FThread (o :: rest) (ft_world t) (ft_tick t) (ft_results t) FHung)))
      | UB => UB
      end
  end.
Fixpoint f_run (P : profile) (U A : N) (E : endian) (b : n_build) (envs : nat -> c_env) (pads : nat -> nat -> N -> N) (cs : list (nat * bool)) (sys : f_system)
    : res f_system :=
  match cs with
  | [] => Ret sys
  | (i, spurious) :: rest => sys' <- f_step P U A E b envs pads i spurious sys;; f_run P U A E b envs pads rest sys'
  end.
