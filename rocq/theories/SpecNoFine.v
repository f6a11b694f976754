(** Specification of the steps inside the calls of threads linked with the no-std library: when a call takes effect, and what is there in the
    middle of it. *)
From Verif Require Export SpecNoThreads MCNoFine.

(** ** When calls take effect *)
Definition got_block (t : f_thread) : bool := match ft_phase t with FServed _ _ _ => true | _ => false end.
Definition asking (t : f_thread) : bool := match ft_phase t with FAsking _ _ _ _ _ => true | _ => false end.
(** A step of a thread is the one with which its call takes effect if the call had not got its memory before and is not waiting for it
    afterwards: the step in which it gets it, hangs, or comes back without having asked. *)
Definition takes_effect (t t' : f_thread) : bool := negb (got_block t) && negb (asking t').
(** the threads whose calls take effect, in that order *)
Fixpoint effects (P : profile) (U A : N) (E : endian) (b : n_build) (envs : nat -> c_env) (pads : nat -> nat -> N -> N) (cs : list (nat * bool)) (sys : f_system)
    : list nat :=
  match cs with
  | [] => []
  | (i, spurious) :: rest =>
      match f_step P U A E b envs pads i spurious sys with
      | Ret sys' => (if takes_effect (fs_thread sys i) (fs_thread sys' i) then [i] else []) ++ effects P U A E b envs pads rest sys'
      | _ => []
      end
  end.

(** ** In the middle of calls *)
(** the block the allocator has handed out and the thread has not yet used *)
Definition reserved (b : n_build) (t : f_thread) (y : N) : Prop :=
  match ft_phase t with FServed _ l o => in_region (nb_base b + o) (l_size l) y | _ => False end.
Definition holds (A : N) (b : n_build) (env : c_env) (n k : nat) (t : f_thread) (y : N) : Prop :=
  owns A b env n k (ft_world t) y \/ reserved b t y.
(** How thread [t] stands to the thread [a] whose calls happen at once. A thread that waits for memory has not made its call, one that has
    got it has; in both cases memory is as after the call except that the new position or the longer list is not there yet. *)
Definition stands (A : N) (E : endian) (b : n_build) (env : c_env) (n k : nat) (m : mem) (t : f_thread) (a : a_thread) : Prop :=
  match ft_phase t with
  | FReady => ft_todo t = at_todo a /\ ft_results t = at_results a /\ at_hung a = false /\ thread_shows A E b env n k m (ft_world t) (at_state a)
  | FAsking _ _ _ _ _ | FHung =>
      exists o rest, ft_todo t = o :: rest /\ at_todo a = o :: rest /\ ft_results t = at_results a /\ at_hung a = negb (asking t) /\
        thread_shows A E b env n k m (ft_world t) (left_state (at_state a) o)
  | FServed _ _ _ =>
      exists st o r, ft_todo t = o :: at_todo a /\ at_results a = ft_results t ++ [r] /\ at_hung a = false /\ hclient_step st o = Fine (at_state a, r) /\
        thread_shows A E b env n k m (ft_world t) (left_state st o)
  end.
