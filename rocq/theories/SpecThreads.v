(** Specification of C programs with threads: each thread by itself, over abstract values. *)
From Verif Require Export SpecProgram SpecCheck MCThreads.

(** ** One step of one thread *)
Definition a_step (code : list c_stmt) (st : p_state) : outcome (list c_stmt * p_state) :=
  let v := ps_val st in
  match code with
  | [] => Fine ([], st)
  | SSkip :: rest => Fine (rest, st)
  | SValue o :: rest => match v_meaning v o with Some v' => Fine (rest, PState (ps_heap st) v') | None => Unset end
  | SCall x c :: rest =>
      match p_meaning st c with
      | Fine (h, r) => Fine (rest, PState h (let_var v x r))
      | Misused => Misused
      | Unset => Unset
      end
  | SSet x a :: rest =>
      match arg_of v a with
      | Some r => if is_pointer r then Unset else Fine (rest, PState (ps_heap st) (let_var v x r))
      | None => Unset
      end
  | SAdd x a b :: rest =>
      match number_of v a, number_of v b with
      | Some y, Some z => Fine (rest, PState (ps_heap st) (let_var v x (VInt (Z.to_N ((y + z) mod 256)))))
      | _, _ => Unset
      end
  | SSeq s t :: rest => Fine (s :: t :: rest, st)
  | SIf c s t :: rest => match holds v c with Some b => Fine ((if b then s else t) :: rest, st) | None => Unset end
  | SWhile c b :: rest => match holds v c with Some true => Fine (b :: SWhile c b :: rest, st) | Some false => Fine (rest, st) | None => Unset end
  end.
Fixpoint a_steps (n : nat) (code : list c_stmt) (st : p_state) : outcome (list c_stmt * p_state) :=
  match n with
  | O => Fine (code, st)
  | S n => match a_step code st with Fine (code', st') => a_steps n code' st' | Misused => Misused | Unset => Unset end
  end.
(** how often thread [i] is on turn *)
Definition turns (i : nat) (schedule : list nat) : nat := length (filter (Nat.eqb i) schedule).
(** thread [i] by itself *)
Definition alone (programs : nat -> c_stmt) (i n : nat) : outcome (list c_stmt * p_state) := a_steps n [programs i] p_state_start.

(** ** Placement: every thread has its variables, and no two have a byte in common *)
Definition in_variables (A : N) (env : p_env) (Z : p_size) (y : N) : Prop :=
  (exists v, variable (sz_pos Z) (sz_text Z) v /\ in_variable A (p_positions env) v y) \/
  (exists o, v_known (sz_hand Z) (sz_bits Z) o /\ SpecCall.in_object (p_objects env) o y).
Definition threads_placed (A : N) (envs : nat -> p_env) (Zs : nat -> p_size) (m : mem) : Prop :=
  (forall i, all_placed A (envs i) (Zs i) m) /\
  forall i j y, i <> j -> in_variables A (envs i) (Zs i) y -> in_variables A (envs j) (Zs j) y -> False.
(** thread [i] of the system, with the memory as it is now *)
Definition now (sys : system) (i : nat) : p_world := with_shared (sy_mem sys) (th_world (sy_thread sys i)).
(** the threads come to where the one on turn is to do a [Position_startpos] for which the allocator has no block *)
Definition sys_out_of_memory (P : profile) (A : N) (E : endian) (B : box_layout) (envs : nat -> p_env) (allocs : nat -> nat -> mem -> option N) (pads : nat -> nat -> N -> N)
    (schedule : list nat) (sys : system) : Prop :=
  exists before i after sys', schedule = before ++ i :: after /\ sys_run P A E B envs allocs pads before sys = Ret sys' /\
    no_block (allocs i) (th_code (sy_thread sys' i)) (now sys' i).
