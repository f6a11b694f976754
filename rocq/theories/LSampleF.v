(** Concrete threads interrupted inside their calls, used in the examples beside the theorems. *)
From Verif Require Export LSampleU SpecNoFine.

(** 0: not inside a call, 1: asking for memory, 2: has got it, 3: hangs *)
Definition phase_code (ph : f_phase) : N := match ph with FReady => 0 | FAsking _ _ _ _ _ => 1 | FServed _ _ _ => 2 | FHung => 3 end.
(** what is left of the arena, and the results, the number of calls to come and the phase of the first [n] threads *)
Definition f_seen (n : nat) (x : res f_system) : option (N * list (list c_result * nat * N)) :=
  match x with
  | Ret sys => Some (fs_rem sys, map (fun i => let t := fs_thread sys i in (ft_results t, length (ft_todo t), phase_code (ft_phase t))) (seq 0 n))
  | _ => None
  end.
Definition step0 : nat * bool := (0, false)%nat.
Definition step1 : nat * bool := (1, false)%nat.
Definition fail0 : nat * bool := (0, true)%nat.
Definition fail1 : nat * bool := (1, true)%nat.
(** both threads load [remaining]; thread 1 gets its position first, thread 0 after two failures; thread 1 moves and destructs while thread 0
    has its block and has not used it *)
Definition mixed : list (nat * bool) := [step0; step1; fail1; step1; step0; fail0; step0; step1; step1; step1; step1; step1].
(** thread 0 goes on, and thread 1 hangs *)
Definition more : list (nat * bool) := [step0; step0; step1; step1; step0; fail0; step0; step0].
(** thread 0 asks first, thread 1 gets the memory *)
Definition overtaken : list (nat * bool) := [step1; step1; step1; step0; step0].
(** the two threads step by step in turn *)
Fixpoint alternate (n : nat) : list (nat * bool) := match n with O => [] | S n => [step0; step1] ++ alternate n end.
(** the offset of the block thread [i] has and has not used, and what memory has at the two ends of it *)
Definition unused (b : n_build) (i : nat) (x : res f_system) : option (N * option N * option N) :=
  match x with
  | Ret sys =>
      match ft_phase (fs_thread sys i) with
      | FServed _ l o => Some (o, fs_mem sys (nb_base b + o), fs_mem sys (nb_base b + o + l_size l - 1))
      | _ => None
      end
  | _ => None
  end.
