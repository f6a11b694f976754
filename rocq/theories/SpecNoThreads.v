(** Specification of threads linked with the no-std library: abstract positions, and a number for the memory that is left. *)
From Verif Require Export SpecArena MCNoThreads.

(** ** The threads over abstract positions *)
Record a_thread := AThread { at_todo : list h_op; at_state : hclient; at_results : list c_result; at_hung : bool }.
Record a_system := ASystem { as_rem : N; as_thread : nat -> a_thread }.
Definition a_start (programs : nat -> list h_op) : a_system := ASystem (128 * 1024) (fun i => AThread (programs i) hclient_start [] false).
Definition set_a (ts : nat -> a_thread) (i : nat) (t : a_thread) : nat -> a_thread := fun j => if Nat.eqb j i then t else ts j.
Definition granted (os : list (option N)) : bool := forallb (fun o => match o with Some _ => true | None => false end) os.
(** one call: it is answered if what it asks for is there, and otherwise the thread hangs for good *)
Definition a_turn (b : n_build) (i : nat) (s : a_system) : outcome a_system :=
  let t := as_thread s i in
  if at_hung t then Fine s
  else
    match at_todo t with
    | [] => Fine s
    | o :: rest =>
        match hclient_step (at_state t) o with
        | Fine (st', r) =>
            let (rem', os) := serial_run (as_rem s) (op_requests b (at_state t) o) in
            Fine (if granted os then ASystem rem' (set_a (as_thread s) i (AThread rest st' (at_results t ++ [r]) false))
                  else ASystem (as_rem s) (set_a (as_thread s) i (AThread (o :: rest) (at_state t) (at_results t) true)))
        | Misused => Misused
        | Unset => Unset
        end
    end.
Fixpoint a_turns (b : n_build) (schedule : list nat) (s : a_system) : outcome a_system :=
  match schedule with
  | [] => Fine s
  | i :: rest => match a_turn b i s with Fine s' => a_turns b rest s' | Misused => Misused | Unset => Unset end
  end.
(** what a thread hanging in call [o] leaves in memory: [Position_make_compact_move] has made the move in the position already, but has not
    added it to the list *)
Definition left_state (st : hclient) (o : h_op) : hclient :=
  match o with
  | HMove h mv =>
      match object_of st h with
      | Some (id, (x0, x, ms)) => put_object st id (Some (x0, fst (a_try x (unpack mv)), ms))
      | None => st
      end
  | _ => st
  end.
Definition memory_of (t : a_thread) : hclient :=
  match at_todo t with
  | o :: _ => if at_hung t then left_state (at_state t) o else at_state t
  | [] => at_state t
  end.
(** how often thread [i] is on turn *)
Definition on_turn (i : nat) (schedule : list nat) : nat := length (filter (Nat.eqb i) schedule).

(** ** Memory *)
(** the bytes of a thread: its variables, its live positions and their lists of moves *)
Definition owns (A : N) (b : n_build) (env : c_env) (n k : nat) (nw : n_world) (y : N) : Prop :=
  in_object (nb_box b) (nw_world nw) y \/ in_vector b nw y \/ exists v, variable n k v /\ in_variable A env v y.
(** every thread has its variables, and no two have a byte in common *)
Definition variables_apart (A : N) (envs : nat -> c_env) (n k : nat -> nat) (m : mem) : Prop :=
  (forall i, placed A (envs i) (n i) (k i) m) /\
  forall i j v w y, i <> j -> variable (n i) (k i) v -> in_variable A (envs i) v y -> variable (n j) (k j) w -> in_variable A (envs j) w y -> False.
(** memory [m] shows the variables, the positions and the lists of moves of [st] *)
Definition thread_shows (A : N) (E : endian) (b : n_build) (env : c_env) (n k : nat) (m : mem) (nw : n_world) (st : hclient) : Prop :=
  (forall i x, (i < n)%nat -> cl_pos (hc_local st) i = Some x -> shows A E m (at_pos env i) x) /\
  (forall t l, (t < k)%nat -> cl_text (hc_local st) t = Some l -> string_at m (at_text env t) l) /\
  (forall id x0 x ms, hc_object st id = Some (x0, x, ms) ->
     exists a, w_live (nw_world nw) id = Some (a, ms) /\ object_at A E (nb_box b) m a x0 x /\ moves_at b m (fst (nw_vec nw id)) ms) /\
  (forall id, hc_object st id = None -> w_live (nw_world nw) id = None).

(** ** How much is enough *)
(** the most the allocator can spend on a request: the block and what rounding down to its alignment loses *)
Definition spend (ls : list layout) : N := fold_right (fun l t => l_size l + (l_align l - 1) + t) 0 ls.
Definition spend_all (b : n_build) (programs : nat -> list h_op) (threads : list nat) : N :=
  fold_right (fun i t => spend (requests b hclient_start (programs i)) + t) 0 threads.
