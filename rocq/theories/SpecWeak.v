(** Specification of the threads of the no-std library on weakly ordered memory. *)
From Verif Require Export SpecNoFine MCWeak.

(** the threads whose calls take effect, in that order *)
Fixpoint w_effects (P : profile) (U A : N) (E : endian) (b : n_build) (envs : nat -> c_env) (pads : nat -> nat -> N -> N) (cs : list w_choice) (ws : w_system)
    : list nat :=
  match cs with
  | [] => []
  | c :: rest =>
      let i := wc_thread c in
      match w_step P U A E b envs pads c ws with
      | Ret ws' => (if takes_effect (fs_thread (ws_sys ws) i) (fs_thread (ws_sys ws') i) then [i] else []) ++ w_effects P U A E b envs pads rest ws'
      | _ => []
      end
  end.
(** the values never go up *)
Fixpoint descending (l : list N) : Prop := match l with x :: ((y :: _) as rest) => y <= x /\ descending rest | _ => True end.
(** memory [m'] has the bytes of one thread as in [m], and in the rest of the arena nothing: the blocks of all other threads are taken away.
    Outside the arena it may have anything. *)
Definition only (A : N) (b : n_build) (env : c_env) (n k : nat) (t : f_thread) (m m' : mem) : Prop :=
  (forall y, owns A b env n k (ft_world t) y -> m' y = m y) /\
  (forall y, in_region (nb_base b) (128 * 1024) y -> ~ owns A b env n k (ft_world t) y -> m' y = None).
(** the same machine, if functions that have the same values are the same *)
Definition same_system (sys sys' : f_system) : Prop := fs_mem sys = fs_mem sys' /\ fs_rem sys = fs_rem sys' /\ forall i, fs_thread sys i = fs_thread sys' i.
