(** Model of C programs with threads linked with the no-std library: each thread makes its calls on its own variables and pointers; all
    share the memory and the bundled allocator (/repo/shogi_core_c/src/no_std.rs:58-114). A thread for whose request there is no memory
    never comes back from [error_handler] (no_std.rs:52-56), nor does one that panics from [panic] (no_std.rs:45-48); the other
    threads run on. *)
From Verif Require Export MCArena.

(** [nt_hung]: the thread is in one of the two endless loops. The memory and the remaining bytes in [nt_world] are what they were when the
    thread last came back from a call; [ns_mem] and [ns_rem] are those of now. *)
Record n_thread := NThread { nt_todo : list h_op; nt_world : n_world; nt_tick : nat; nt_results : list c_result; nt_hung : bool }.
Record n_system := NSystem { ns_mem : mem; ns_rem : N; ns_thread : nat -> n_thread }.
Definition n_shared (m : mem) (rem : N) (nw : n_world) : n_world := NWorld (with_mem (nw_world nw) m) rem (nw_vec nw).
Definition nsys_start (m : mem) (programs : nat -> list h_op) : n_system :=
  NSystem m ARENA_SIZE (fun i => NThread (programs i) (n_start m) 0 [] false).

(** The memory that a call which never comes back leaves behind: [Position::make_move] (/repo/shogi_core/src/position.rs:315-319) has made
    the move in [inner] before [moves.push] asks for memory; [Box::new] asks before it writes. *)
Definition n_left (P : profile) (A : N) (E : endian) (b : n_build) (env : c_env) (pad : N -> N) (o : h_op) (nw : n_world) : mem :=
  match o with
  | HMove _ _ =>
      match h_step P A E (nb_box b) env (fun _ => None) pad o (nw_world nw) with
      | Ret (w', _) => w_mem w'
      | _ => w_mem (nw_world nw)
      end
  | _ => w_mem (nw_world nw)
  end.
Definition set_thread (ts : nat -> n_thread) (i : nat) (t : n_thread) : nat -> n_thread := fun j => if Nat.eqb j i then t else ts j.
(** Thread [i] makes its next call, if it has one left and does not hang. *)
Definition nsys_step (P : profile) (U A : N) (E : endian) (b : n_build) (envs : nat -> c_env) (pads : nat -> nat -> N -> N) (i : nat) (sys : n_system)
    : res n_system :=
  let t := ns_thread sys i in
  if nt_hung t then Ret sys
  else
    match nt_todo t with
    | [] => Ret sys
    | o :: rest =>
        let nw := n_shared (ns_mem sys) (ns_rem sys) (nt_world t) in
        match n_step P U A E b (envs i) (pads i (nt_tick t)) o nw with
        | Ret (nw', r) =>
            Ret (NSystem (w_mem (nw_world nw')) (nw_rem nw')
                   (set_thread (ns_thread sys) i (NThread rest nw' (S (nt_tick t)) (nt_results t ++ [r]) false)))
        | Panic =>
            Ret (NSystem (n_left P A E b (envs i) (pads i (nt_tick t)) o nw) (ns_rem sys)
                   (set_thread (ns_thread sys) i (NThread (o :: rest) (nt_world t) (nt_tick t) (nt_results t) true)))
        | UB => UB
        end
    end.
(** [schedule]: which thread makes the next call *)
Fixpoint nsys_run (P : profile) (U A : N) (E : endian) (b : n_build) (envs : nat -> c_env) (pads : nat -> nat -> N -> N) (schedule : list nat) (sys : n_system)
    : res n_system :=
  match schedule with
  | [] => Ret sys
  | i :: rest => sys' <- nsys_step P U A E b envs pads i sys;; nsys_run P U A E b envs pads rest sys'
  end.
